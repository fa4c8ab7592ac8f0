(** * Rate grids: cell numbers, time index, concatenation *)
From Coq Require Import Reals List Bool String Sorted Permutation Lia Lra ZArith.
From Verif Require Import Base Num XR Dict SortLib Utils_model Props_Catalog Rategrid_model Spec_Rategrid Rategrid_proofs.
Import ListNotations.
Open Scope list_scope.

(** ** lists and levels *)
Lemma drop_nth_nth {A} i (l : list A) j : nth_error (drop_nth i l) j = nth_error l (if (j <? i)%nat then j else S j).
Proof.
  unfold drop_nth. revert i j. induction l as [|x l IH]; intros i j.
  - rewrite firstn_nil, skipn_nil. cbn [app]. assert (H : forall k, nth_error (@nil A) k = None) by (intros [|k]; reflexivity). rewrite !H. reflexivity.
  - destruct i as [|i]; [reflexivity|]. cbn [firstn skipn app]. destruct j as [|j]; [reflexivity|]. cbn [nth_error].
    change (S j <? S i)%nat with (j <? i)%nat. rewrite IH. destruct (j <? i)%nat; reflexivity.
Qed.
Lemma drop_nth_length {A} i (l : list A) : (i < length l)%nat -> length (drop_nth i l) = (length l - 1)%nat.
Proof. intros H. unfold drop_nth. rewrite app_length, firstn_length, skipn_length. lia. Qed.
Lemma drop_nth_app {A} i (l : list A) x j : (i < length l)%nat ->
  nth_error (drop_nth i l ++ [x]) j = if (j <? length l - 1)%nat then nth_error l (if (j <? i)%nat then j else S j) else if (j =? length l - 1)%nat then Some x else None.
Proof.
  intros H. destruct (j <? length l - 1)%nat eqn:E; [apply Nat.ltb_lt in E | apply Nat.ltb_ge in E].
  - rewrite nth_error_app1 by (rewrite drop_nth_length; assumption). apply drop_nth_nth.
  - rewrite nth_error_app2 by (rewrite drop_nth_length; assumption). rewrite drop_nth_length by exact H.
    destruct (j =? length l - 1)%nat eqn:E2; [apply Nat.eqb_eq in E2; subst; rewrite Nat.sub_diag; reflexivity|].
    apply Nat.eqb_neq in E2. destruct (j - (length l - 1))%nat as [|k] eqn:E3; [lia|]. cbn. destruct k; reflexivity.
Qed.
Lemma level_pos_spec name names i : level_pos name names = Some i -> nth_error names i = Some name /\ (forall j, (j < i)%nat -> nth_error names j <> Some name).
Proof.
  revert i. induction names as [|n names IH]; intros i; cbn [level_pos]; [discriminate|].
  destruct (n =? name)%string eqn:E; [apply String.eqb_eq in E | apply String.eqb_neq in E].
  - intros H. injection H as <-. subst. split; [reflexivity | intros j Hj; lia].
  - destruct (level_pos name names) as [k|]; cbn [option_map]; [|discriminate]. intros H. injection H as <-.
    destruct (IH k eq_refl) as [H1 H2]. split; [exact H1|]. intros [|j] Hj; cbn; [congruence | apply H2; lia].
Qed.
Lemma level_pos_in name names : In name names -> exists i, level_pos name names = Some i.
Proof.
  induction names as [|n names IH]; intros H; [contradiction|]. cbn [level_pos]. destruct (n =? name)%string eqn:E; [eauto|].
  destruct H as [->|H]; [rewrite String.eqb_refl in E; discriminate|]. destruct (IH H) as [i ->]. cbn. eauto.
Qed.
Lemma level_pos_none name names : ~ In name names -> level_pos name names = None.
Proof.
  induction names as [|n names IH]; intros H; [reflexivity|]. cbn [level_pos]. destruct (n =? name)%string eqn:E.
  - apply String.eqb_eq in E. subst. elim H. left. reflexivity.
  - rewrite IH; [reflexivity|]. intros K. apply H. right. exact K.
Qed.
Lemma nodup_nth {A} (l : list A) i j x : NoDup l -> nth_error l i = Some x -> nth_error l j = Some x -> i = j.
Proof. intros H Hi Hj. apply (proj1 (NoDup_nth_error l) H); [eapply nth_lt; exact Hi | congruence]. Qed.
Lemma level_values_spec t name vs : well_indexed t -> level_of t name vs -> level_values t name = vs.
Proof.
  intros (Hn & Hl & Hf) H. inversion H as [i vs' Hi Hv]; subst. unfold level_values.
  destruct (level_pos_in name (t_names t)) as [k Hk]; [eapply nth_error_In; exact Hi|]. rewrite Hk.
  destruct (level_pos_spec _ _ _ Hk) as [Hk' _]. assert (k = i) by (eapply nodup_nth; eauto). subst k. clear -Hv.
  induction Hv as [|ix v l l' Hx H IH]; cbn [map]; [reflexivity|]. rewrite IH. f_equal. apply nth_error_nth. exact Hx.
Qed.
Lemma level_of_exists t name : well_indexed t -> In name (t_names t) -> level_of t name (level_values t name).
Proof.
  intros (Hn & Hl & Hf) Hi. destruct (level_pos_in name _ Hi) as [k Hk]. unfold level_values. rewrite Hk.
  destruct (level_pos_spec _ _ _ Hk) as [Hk' _]. apply (level_of_intro _ _ k); [exact Hk'|].
  assert (Hlt : (k < length (t_names t))%nat) by (eapply nth_lt; exact Hk'). clear -Hf Hlt.
  induction Hf as [|ix l Hx H IH]; cbn [map]; constructor; [|exact IH]. apply nth_error_nth'. lia.
Qed.

(** ** renumbering *)
Definition renumbered (t t' : table xr) : Prop :=
  t_rows t' = t_rows t /\ t_columns t' = t_columns t /\ well_indexed t' /\
  (forall n, In n (t_names t') <-> In n (t_names t)) /\
  (forall n vs, n <> "cell_id" -> level_of t n vs -> level_of t' n vs) /\
  (exists ids, level_of t' "cell_id" (map id_of ids) /\ numbers_cells (t_rows t) ids) /\
  (forall pre, t_names t = pre ++ ["cell_id"] -> t_names t' = t_names t).

Section R.
  Variable srt : list (list xr) -> list nat.
  Hypothesis Hsrt : sorts_rows srt.

  Lemma bounds_eq (row : dict xr) : bounds row = cell_bounds row.
  Proof. reflexivity. Qed.
  Lemma has_columns cols : check_required_cols cols grid_columns = true <-> incl required_columns cols.
  Proof.
    unfold check_required_cols. rewrite forallb_forall. split; intros H x Hx; [apply mem_In; apply H; exact Hx | apply mem_In; apply H; exact Hx].
  Qed.
  Lemma renumber t i : well_indexed t -> level_pos "cell_id" (t_names t) = Some i ->
    exists ids, unique_inverse same_row srt (map bounds (t_rows t)) = Ok ids /\
      renumbered t (mktab (drop_nth i (t_names t) ++ ["cell_id"]) (map2 (fun ix c => drop_nth i ix ++ [ofnat c]) (t_index t) ids) (t_columns t) (t_rows t)).
  Proof.
    intros (Hn & Hl & Hf) Hi. destruct (level_pos_spec _ _ _ Hi) as [Hi1 _].
    assert (Hlt : (i < length (t_names t))%nat) by (eapply nth_lt; exact Hi1).
    destruct (unique_inverse_spec srt Hsrt (map bounds (t_rows t))) as (ids & Hu & Hlen & Hsame & Hcons).
    { intros r s Hr Hs. apply in_map_iff in Hr, Hs. destruct Hr as (r' & <- & _), Hs as (s' & <- & _). unfold bounds. rewrite !map_length. reflexivity. }
    rewrite map_length in Hlen. exists ids. split; [exact Hu|].
    set (t' := mktab _ _ _ _).
    assert (Hnn : forall j, nth_error (t_names t') j = if (j <? length (t_names t) - 1)%nat then nth_error (t_names t) (if (j <? i)%nat then j else S j) else if (j =? length (t_names t) - 1)%nat then Some "cell_id" else None).
    { intros j. apply drop_nth_app. exact Hlt. }
    assert (Hnl : length (t_names t') = length (t_names t)) by (cbn [t_names t']; rewrite app_length, drop_nth_length by exact Hlt; cbn [length]; lia).
    assert (Hil : length (t_index t') = length (t_rows t)).
    { cbn [t_index t']. rewrite <- Hl. rewrite <- Hlen in Hl. clear -Hl. revert ids Hl. induction (t_index t) as [|x l IH]; intros [|y ids] H; cbn in *; auto; discriminate || (f_equal; apply IH; lia). }
    assert (Hin : forall n, In n (t_names t') <-> In n (t_names t)).
    { intros n. split; intros H.
      - cbn [t_names t'] in H. apply in_app_or in H. destruct H as [H|[<-|[]]]; [|eapply nth_error_In; exact Hi1].
        unfold drop_nth in H. apply in_app_or in H. destruct H as [H|H].
        + rewrite <- (firstn_skipn i (t_names t)). apply in_or_app. left. exact H.
        + rewrite <- (firstn_skipn (S i) (t_names t)). apply in_or_app. right. exact H.
      - apply In_nth_error in H. destruct H as [j Hj]. assert (Hjl := nth_lt _ _ _ Hj).
        destruct (Nat.eq_dec j i) as [-> |Hne]; [rewrite Hi1 in Hj; injection Hj as <-; cbn [t_names t']; apply in_or_app; right; left; reflexivity|].
        apply (nth_error_In _ (if (j <? i)%nat then j else (j - 1)%nat)). rewrite Hnn.
        destruct (j <? i)%nat eqn:E; [apply Nat.ltb_lt in E | apply Nat.ltb_ge in E].
        + replace (j <? length (t_names t) - 1)%nat with true by (symmetry; apply Nat.ltb_lt; lia).
          replace (j <? i)%nat with true by (symmetry; apply Nat.ltb_lt; lia). exact Hj.
        + replace (j - 1 <? length (t_names t) - 1)%nat with true by (symmetry; apply Nat.ltb_lt; lia).
          replace (j - 1 <? i)%nat with false by (symmetry; apply Nat.ltb_ge; lia). replace (S (j - 1)) with j by lia. exact Hj. }
    assert (Hwf : well_indexed t').
    { split; [|split; [exact Hil|]].
      - apply (Permutation_NoDup (l := t_names t)); [|exact Hn]. apply NoDup_Permutation_bis; [exact Hn | lia |].
        intros x Hx. apply Hin. exact Hx.
      - rewrite Hnl. cbn [t_index t']. clear -Hf Hlt. revert ids. induction Hf as [|ix l Hx H IH]; intros [|y ids]; cbn [map2]; constructor; auto.
        rewrite app_length, drop_nth_length by lia. cbn [length]. lia. }
    split; [reflexivity|]. split; [reflexivity|]. split; [exact Hwf|]. split; [exact Hin|]. split.
    - intros n vs Hne H. inversion H as [j vs' Hj Hv]; subst.
      assert (Hji : j <> i) by (intros ->; congruence). assert (Hjl := nth_lt _ _ _ Hj).
      apply (level_of_intro _ _ (if (j <? i)%nat then j else (j - 1)%nat)).
      + rewrite Hnn. destruct (j <? i)%nat eqn:E; [apply Nat.ltb_lt in E | apply Nat.ltb_ge in E].
        * replace (j <? length (t_names t) - 1)%nat with true by (symmetry; apply Nat.ltb_lt; lia).
          replace (j <? i)%nat with true by (symmetry; apply Nat.ltb_lt; lia). exact Hj.
        * replace (j - 1 <? length (t_names t) - 1)%nat with true by (symmetry; apply Nat.ltb_lt; lia).
          replace (j - 1 <? i)%nat with false by (symmetry; apply Nat.ltb_ge; lia). replace (S (j - 1)) with j by lia. exact Hj.
      + cbn [t_index t']. rewrite <- Hl in Hlen. clear -Hv Hf Hlt Hjl Hji Hlen. revert ids Hlen.
        induction Hv as [|ix v l l' Hx H IH]; intros [|y ids] Hlen; cbn [map2]; try discriminate Hlen; constructor.
        * inversion Hf as [|? ? Hix Hf']; subst. rewrite drop_nth_app by lia. rewrite Hix.
          destruct (j <? i)%nat eqn:E; [apply Nat.ltb_lt in E | apply Nat.ltb_ge in E].
          -- replace (j <? length (t_names t) - 1)%nat with true by (symmetry; apply Nat.ltb_lt; lia).
             replace (j <? i)%nat with true by (symmetry; apply Nat.ltb_lt; lia). exact Hx.
          -- replace (j - 1 <? length (t_names t) - 1)%nat with true by (symmetry; apply Nat.ltb_lt; lia).
             replace (j - 1 <? i)%nat with false by (symmetry; apply Nat.ltb_ge; lia). replace (S (j - 1)) with j by lia. exact Hx.
        * inversion Hf; subst. apply IH; auto.
    - split; [|intros pre Hpre; cbn [t_names t']; assert (i = length pre);
        [eapply nodup_nth; [exact Hn | exact Hi1 | rewrite Hpre, nth_error_app2 by lia; rewrite Nat.sub_diag; reflexivity] |
         subst i; rewrite Hpre; unfold drop_nth; rewrite firstn_app, firstn_all, Nat.sub_diag; cbn [firstn]; rewrite app_nil_r, skipn_all2 by (rewrite app_length; cbn [length]; lia); rewrite app_nil_r; reflexivity]].
      exists ids. split.
      + apply (level_of_intro _ _ (length (t_names t) - 1)).
        * rewrite Hnn, Nat.ltb_irrefl, Nat.eqb_refl. reflexivity.
        * cbn [t_index t']. rewrite <- Hl in Hlen. clear -Hf Hlt Hlen. revert ids Hlen.
          induction Hf as [|ix l Hix H IH]; intros [|y ids] Hlen; cbn [map2 map]; try discriminate Hlen; constructor.
          -- rewrite drop_nth_app by lia. rewrite Hix, Nat.ltb_irrefl, Nat.eqb_refl. unfold id_of, ofnat. rewrite INR_IZR_INZ. reflexivity.
          -- apply IH. cbn [length] in Hlen. lia.
      + split; [exact Hlen|]. split; [|exact Hcons].
        intros a b r s x y Hr Hs Hx Hy. rewrite <- !bounds_eq. apply (Hsame a b); auto; rewrite nth_error_map; [rewrite Hr | rewrite Hs]; reflexivity.
  Qed.

  (** the start and end recorded for a table *)
  Definition recorded (t : table xr) (start fin : option xr) (s e : option xr) : Prop :=
    (In "starttime" (t_names t) -> exists vs, level_of t "starttime" vs /\ s = level_min vs /\
        ((In "endtime" (t_names t) -> exists ws, level_of t "endtime" ws /\ e = level_max ws) /\ (~ In "endtime" (t_names t) -> e = level_max vs))) /\
    (~ In "starttime" (t_names t) -> s = start /\ e = fin).
  Lemma reindex_spec g i : well_indexed (g_tab g) -> incl required_columns (t_columns (g_tab g)) -> level_pos "cell_id" (t_names (g_tab g)) = Some i ->
    exists g', reindex_cell_id srt g = Ok g' /\ renumbered (g_tab g) (g_tab g') /\ recorded (g_tab g') (g_start g) (g_end g) (g_start g') (g_end g') /\
      g_cls g' = g_cls g /\ g_name g' = g_name g /\ g_n g' = g_n g.
  Proof.
    intros Hw Hc Hi. destruct (renumber (g_tab g) i Hw Hi) as (ids & Hu & Hr). unfold reindex_cell_id.
    rewrite (proj2 (has_columns _) Hc). cbn [negb]. rewrite Hi, Hu. cbn [rbind].
    set (t' := mktab _ _ _ _) in *. assert (Hw' : well_indexed t') by (destruct Hr as (_ & _ & H & _); exact H).
    destruct (mem "starttime" (t_names t')) eqn:Es; [apply mem_In in Es | apply mem_not in Es].
    - eexists. split; [reflexivity|]. cbn [g_tab g_start g_end g_cls g_name g_n]. split; [exact Hr|]. split; [|auto]. split; [|intros H; contradiction].
      intros _. exists (level_values t' "starttime"). split; [apply level_of_exists; assumption|]. split; [reflexivity|].
      destruct (mem "endtime" (t_names t')) eqn:Ee; [apply mem_In in Ee | apply mem_not in Ee]; split; intros H; try contradiction; auto.
      exists (level_values t' "endtime"). split; [apply level_of_exists; assumption | reflexivity].
    - eexists. split; [reflexivity|]. cbn [g_tab g_start g_end g_cls g_name g_n]. split; [exact Hr|]. split; [|auto]. split; [intros H; contradiction | auto].
  Qed.
  Lemma new_grid_spec k t name s e n : well_indexed t -> incl required_columns (t_columns t) -> In "cell_id" (t_names t) -> (1 < nlevels t)%nat ->
    exists g, new_grid srt k t name s e n = Ok g /\ renumbered t (g_tab g) /\ recorded (g_tab g) s e (g_start g) (g_end g) /\ g_cls g = k /\ g_name g = name /\ g_n g = n.
  Proof.
    intros Hw Hc Hi Hl. destruct (level_pos_in _ _ Hi) as [i Hp].
    destruct (reindex_spec (mkgrid k t name s e n) i Hw Hc Hp) as (g & Hg & H1 & H2 & H3 & H4 & H5).
    exists g. unfold new_grid. replace (1 <? nlevels t)%nat with true by (symmetry; apply Nat.ltb_lt; exact Hl). rewrite Hg. split; [reflexivity|]. split; [exact H1|]. split; [exact H2|]. split; [exact H3|]. split; [exact H4 | exact H5].
  Qed.

  (** ** C61: a rate grid with a level cell_id next to others numbers the cells by their bounds *)
  Theorem C61_cell_ids k t name s e n : well_indexed t -> incl required_columns (t_columns t) -> In "cell_id" (t_names t) -> (1 < length (t_names t))%nat ->
    exists g ids, new_grid srt k t name s e n = Ok g /\
      t_rows (g_tab g) = t_rows t /\ t_columns (g_tab g) = t_columns t /\
      level_of (g_tab g) "cell_id" (map id_of ids) /\ numbers_cells (t_rows t) ids /\
      (forall m vs, m <> "cell_id"%string -> level_of t m vs -> level_of (g_tab g) m vs).
  Proof.
    intros Hw Hc Hi Hl. destruct (new_grid_spec k t name s e n Hw Hc Hi Hl) as (g & Hg & (H1 & H2 & _ & _ & H3 & (ids & H4 & H5) & _) & _).
    exists g, ids. split; [exact Hg|]. split; [exact H1|]. split; [exact H2|]. split; [exact H4|]. split; [exact H5 | exact H3].
  Qed.
  (** with all bounds known, two rows have the same number exactly if the bounds agree *)
  Theorem C61_same_cell rows ids i j r s a b : numbers_cells rows ids -> (forall r, In r rows -> complete_row (cell_bounds r)) ->
    nth_error rows i = Some r -> nth_error rows j = Some s -> nth_error ids i = Some a -> nth_error ids j = Some b ->
    (a = b <-> forall c, In c bound_columns -> dget r c = dget s c).
  Proof.
    intros (_ & H & _) Hc Hr Hs Ha Hb. destruct (H i j r s a b Hr Hs Ha Hb) as [H1 _]. rewrite H1.
    assert (Kr := Hc r (nth_error_In _ _ Hr)). assert (Ks := Hc s (nth_error_In _ _ Hs)).
    assert (G : forall row c, complete_row (cell_bounds row) -> In c bound_columns -> exists v, dget row c = Some v).
    { intros row c Hrow Hi. destruct (dget row c) as [v|] eqn:E; [eauto|]. elim Hrow. unfold cell_bounds. apply in_map_iff. exists c. rewrite E. split; [reflexivity | exact Hi]. }
    split.
    - intros [E|[E _]] c Hi; [subst j; congruence|].
      destruct (G r c Kr Hi) as [v Hv], (G s c Ks Hi) as [w Hw]. rewrite Hv, Hw. f_equal.
      assert (Hmap : forall l, map (fun c => match dget r c with Some v => v | None => NaN end) l = map (fun c => match dget s c with Some v => v | None => NaN end) l ->
                forall c, In c l -> match dget r c with Some v => v | None => NaN end = match dget s c with Some v => v | None => NaN end).
      { induction l as [|x l IH]; intros Em c' Hc'; [contradiction|]. cbn [map] in Em. injection Em as E1 E2. destruct Hc' as [<-|Hc']; [exact E1 | exact (IH E2 c' Hc')]. }
      specialize (Hmap _ E c Hi). rewrite Hv, Hw in Hmap. exact Hmap.
    - intros E. right. split; [|exact Kr]. unfold cell_bounds. apply map_ext_in. intros c Hi. rewrite (E c Hi). reflexivity.
  Qed.
End R.

(** ** C143: with unknown bounds (such as the depths of a grid without depths) equal cells are
    not recognised: every row is a cell of its own *)
Theorem C143_unknown_bounds_refuted srt k t name s e n : sorts_rows srt -> well_indexed t -> incl required_columns (t_columns t) -> In "cell_id" (t_names t) ->
  (1 < length (t_names t))%nat -> (forall r, In r (t_rows t) -> ~ complete_row (cell_bounds r)) ->
  exists g ids, new_grid srt k t name s e n = Ok g /\ level_of (g_tab g) "cell_id" (map id_of ids) /\ NoDup ids /\ length ids = length (t_rows t).
Proof.
  intros Hs Hw Hc Hi Hl Hb. destruct (C61_cell_ids srt Hs k t name s e n Hw Hc Hi Hl) as (g & ids & Hg & _ & _ & Hlv & (Hlen & Hn & _) & _).
  exists g, ids. split; [exact Hg|]. split; [exact Hlv|]. split; [|exact Hlen].
  apply NoDup_nth_error. intros i j Hi' E. destruct (nth_error ids i) as [a|] eqn:Ea; [|apply nth_error_None in Ea; lia].
  symmetry in E. assert (Hj := nth_lt _ _ _ E). rewrite Hlen in Hi', Hj.
  destruct (nth_some (t_rows t) i Hi') as [r Hr], (nth_some (t_rows t) j Hj) as [q Hq].
  destruct (Hn i j r q a a Hr Hq Ea E) as [H1 _]. destruct (proj1 H1 eq_refl) as [H|[_ H]]; [exact H|].
  elim (Hb r); [eapply nth_error_In; exact Hr | exact H].
Qed.
