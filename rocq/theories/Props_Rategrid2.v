(** * Rate grids: time index and concatenation (C144, C145) *)
From Coq Require Import Reals List Bool String Sorted Permutation Lia Lra ZArith.
From Verif Require Import Base Num XR Dict SortLib Utils_model Props_Catalog Rategrid_model Spec_Rategrid Rategrid_proofs Props_Rategrid.
Import ListNotations.
Open Scope list_scope.

(** ** least and greatest *)
Lemma xltb_before (x y : xr) : x <> NaN -> y <> NaN -> (nltb x y = true <-> before x y).
Proof.
  destruct x as [a| | |], y as [b| | |]; cbn; intros Hx Hy; try congruence; try (split; [discriminate | tauto]); try (split; tauto); try (split; [intros _; exact I | reflexivity]).
  - unfold rlt. destruct (Rlt_dec a b); split; auto; discriminate.
Qed.
Lemma before_total x y : x <> NaN -> y <> NaN -> before x y \/ x = y \/ before y x.
Proof.
  destruct x as [a| | |], y as [b| | |]; cbn; intros Hx Hy; auto; try congruence.
  destruct (Rtotal_order a b) as [H|[H|H]]; auto. subst. auto.
Qed.
Lemma known_filter (l : list xr) x : In x (filter (fun x => negb (nisnan x)) l) <-> In x l /\ x <> NaN.
Proof. rewrite filter_In. destruct x; cbn; split; intros [H H']; split; auto; congruence. Qed.
Lemma level_min_spec l : least l (level_min l).
Proof.
  unfold level_min. destruct (filter _ l) as [|x r] eqn:E.
  - intros x Hx. destruct x; try reflexivity; exfalso; eapply (in_nil (A := xr)); rewrite <- E; apply known_filter; split; eauto; discriminate.
  - assert (G : forall r x, (forall y, In y (x :: r) -> y <> NaN) -> let m := fold_left (fun a b : xr => if nltb b a then b else a) r x in
                In m (x :: r) /\ forall y, In y (x :: r) -> y = m \/ before m y).
    { clear. induction r as [|b r IH]; intros x Hn; cbn [fold_left].
      - split; [left; reflexivity|]. intros y [<-|[]]. left. reflexivity.
      - assert (Hx : x <> NaN) by (apply Hn; left; reflexivity). assert (Hb : b <> NaN) by (apply Hn; right; left; reflexivity).
        set (c := if nltb b x then b else x). destruct (IH c) as [H1 H2].
        { intros y [<-|Hy]; [subst c; destruct (nltb b x); assumption | apply Hn; right; right; exact Hy]. }
        split; [destruct H1 as [H1|H1]; [rewrite <- H1; subst c; destruct (nltb b x); cbn; auto | right; right; exact H1]|].
        assert (Hc : forall y, y = x \/ y = b -> y = c \/ before c y).
        { intros y Hy. subst c. destruct (nltb b x) eqn:Eb; [apply (xltb_before b x Hb Hx) in Eb; destruct Hy as [-> | ->]; auto|].
          assert (Hnb : ~ before b x) by (intros K; apply (xltb_before b x Hb Hx) in K; congruence).
          destruct Hy as [-> | ->]; [auto|]. destruct (before_total b x Hb Hx) as [K|[K|K]]; [contradiction | auto | auto]. }
        intros y Hy. assert (Hy' : (y = x \/ y = b) \/ In y r) by (destruct Hy as [<-|[<-|Hy]]; auto).
        destruct Hy' as [Hy'|Hy']; [|apply H2; right; exact Hy'].
        destruct (Hc y Hy') as [-> |Hb1]; [apply H2; left; reflexivity|].
        destruct (H2 c (or_introl eq_refl)) as [<-|Hb2]; [auto | right; eapply before_trans; eauto]. }
    assert (Hk : forall y, In y (x :: r) -> y <> NaN) by (intros y Hy; rewrite <- E in Hy; apply known_filter in Hy; tauto).
    destruct (G r x Hk) as [H1 H2]. cbn beta iota zeta. set (m := fold_left _ r x) in *. cbn [least].
    assert (H1' := H1). rewrite <- E in H1'. apply known_filter in H1'. destruct H1' as [K1 K2]. split; [exact K1|]. split; [exact K2|].
    intros y Hy. destruct (nisnan y) eqn:En; [left; destruct y; cbn in En; congruence|]. right. apply H2. rewrite <- E. apply known_filter. split; [exact Hy|]. intros ->. discriminate En.
Qed.
Lemma level_max_spec l : greatest l (level_max l).
Proof.
  unfold level_max. destruct (filter _ l) as [|x r] eqn:E.
  - intros x Hx. destruct x; try reflexivity; exfalso; eapply (in_nil (A := xr)); rewrite <- E; apply known_filter; split; eauto; discriminate.
  - assert (G : forall r x, (forall y, In y (x :: r) -> y <> NaN) -> let m := fold_left (fun a b : xr => if nltb a b then b else a) r x in
                In m (x :: r) /\ forall y, In y (x :: r) -> y = m \/ before y m).
    { clear. induction r as [|b r IH]; intros x Hn; cbn [fold_left].
      - split; [left; reflexivity|]. intros y [<-|[]]. left. reflexivity.
      - assert (Hx : x <> NaN) by (apply Hn; left; reflexivity). assert (Hb : b <> NaN) by (apply Hn; right; left; reflexivity).
        set (c := if nltb x b then b else x). destruct (IH c) as [H1 H2].
        { intros y [<-|Hy]; [subst c; destruct (nltb x b); assumption | apply Hn; right; right; exact Hy]. }
        split; [destruct H1 as [H1|H1]; [rewrite <- H1; subst c; destruct (nltb x b); cbn; auto | right; right; exact H1]|].
        assert (Hc : forall y, y = x \/ y = b -> y = c \/ before y c).
        { intros y Hy. subst c. destruct (nltb x b) eqn:Eb; [apply (xltb_before x b Hx Hb) in Eb; destruct Hy as [-> | ->]; auto|].
          assert (Hnb : ~ before x b) by (intros K; apply (xltb_before x b Hx Hb) in K; congruence).
          destruct Hy as [-> | ->]; [auto|]. destruct (before_total x b Hx Hb) as [K|[K|K]]; [contradiction | auto | auto]. }
        intros y Hy. assert (Hy' : (y = x \/ y = b) \/ In y r) by (destruct Hy as [<-|[<-|Hy]]; auto).
        destruct Hy' as [Hy'|Hy']; [|apply H2; right; exact Hy'].
        destruct (Hc y Hy') as [-> |Hb1]; [apply H2; left; reflexivity|].
        destruct (H2 c (or_introl eq_refl)) as [<-|Hb2]; [auto | right; eapply before_trans; eauto]. }
    assert (Hk : forall y, In y (x :: r) -> y <> NaN) by (intros y Hy; rewrite <- E in Hy; apply known_filter in Hy; tauto).
    destruct (G r x Hk) as [H1 H2]. cbn beta iota zeta. set (m := fold_left _ r x) in *. cbn [greatest].
    assert (H1' := H1). rewrite <- E in H1'. apply known_filter in H1'. destruct H1' as [K1 K2]. split; [exact K1|]. split; [exact K2|].
    intros y Hy. destruct (nisnan y) eqn:En; [left; destruct y; cbn in En; congruence|]. right. apply H2. rewrite <- E. apply known_filter. split; [exact Hy|]. intros ->. discriminate En.
Qed.

(** ** one pandas operation *)
Section C.
  Variable srt : list (list xr) -> list nat.
  Hypothesis Hsrt : sorts_rows srt.

  Lemma class_of cols : incl required_columns cols -> grid_class cols <> PlainGrid.
  Proof. intros H. unfold grid_class. rewrite (proj2 (has_columns cols) H). cbn [negb]. destruct (check_required_cols cols _); cbn; discriminate. Qed.
  Lemma operation_spec g t : g_cls g <> PlainGrid -> well_indexed t -> incl required_columns (t_columns t) -> In "cell_id" (t_names t) -> (1 < length (t_names t))%nat ->
    exists g', grid_operation srt g t = Ok g' /\ renumbered t (g_tab g') /\ g_cls g' = grid_class (t_columns t) /\
       g_name g' = g_name g /\ g_start g' = g_start g /\ g_end g' = g_end g.
  Proof.
    intros Hg Hw Hc Hi Hl. assert (Hk := class_of _ Hc). unfold grid_operation, construct_grid.
    destruct (new_grid_spec srt Hsrt (grid_class (t_columns t)) t None None None None Hw Hc Hi Hl) as (r & Hr & H1 & H2 & H3 & _ & _).
    destruct (grid_class (t_columns t)) eqn:Ek; [congruence| |]; rewrite Hr; cbn [rbind]; (destruct (g_cls g) eqn:Eg; [congruence| |]);
      eexists; (split; [reflexivity|]); unfold finalize_grid; rewrite H3, Eg; cbn [g_tab g_cls g_name g_start g_end]; repeat (split; [assumption || reflexivity|]); reflexivity.
  Qed.

  Definition time_names (e : bool) : list string := if e then ["starttime"; "endtime"]%string else ["starttime"]%string.
  Lemma forall2_const {A} (P : A -> xr -> Prop) (l : list A) {B} (l' : list B) v : length l = length l' -> (forall x, In x l -> P x v) -> Forall2 P l (map (fun _ => v) l').
  Proof.
    revert l'. induction l as [|x l IH]; intros [|y l'] H Hp; cbn in *; try discriminate; constructor; [apply Hp; left; reflexivity | apply IH; auto].
  Qed.
  Lemma add_time_spec g (e : bool) : rate_grid g -> length (t_names (g_tab g)) = 1%nat -> g_start g <> None -> (e = true -> g_end g <> None) ->
    exists g', add_time_index srt g e = Ok g' /\ t_names (g_tab g') = time_names e ++ ["cell_id"%string] /\ rate_grid g' /\
      t_rows (g_tab g') = t_rows (g_tab g) /\ t_columns (g_tab g') = t_columns (g_tab g) /\
      (exists ids, level_of (g_tab g') "cell_id" (map id_of ids) /\ numbers_cells (t_rows (g_tab g)) ids) /\
      level_of (g_tab g') "starttime" (map (fun _ => the_start g) (t_rows (g_tab g))) /\
      (e = true -> level_of (g_tab g') "endtime" (map (fun _ => the_end g) (t_rows (g_tab g)))) /\
      g_cls g' = grid_class (t_columns (g_tab g)) /\ g_name g' = g_name g /\ g_start g' = g_start g /\ g_end g' = g_end g.
  Proof.
    intros (Hcl & Hc & Hn & Hil & Hf) Hl Hs He. unfold add_time_index. rewrite (proj2 (has_columns _) Hc). cbn [negb].
    destruct (g_start g) as [s|] eqn:Es; [clear Hs|congruence].
    set (times := if e then [s; match g_end g with Some x => x | None => nnan end] else [s]).
    set (t := mktab (time_names e ++ ["cell_id"%string]) (map (app times) (t_index (g_tab g))) (t_columns (g_tab g)) (t_rows (g_tab g))).
    assert (E : match g_end g, e with None, true => Err AttributeError | e0, _ => grid_operation srt g (mktab ((if e then ["starttime"; "endtime"]%string else ["starttime"]%string) ++ ["cell_id"%string])
                  (map (app (if e then [s; match e0 with Some x => x | None => nnan end] else [s])) (t_index (g_tab g))) (t_columns (g_tab g)) (t_rows (g_tab g))) end = grid_operation srt g t).
    { unfold t, times. destruct (g_end g) as [x|] eqn:Ee, e; try reflexivity. elim (He eq_refl). reflexivity. }
    cbv zeta. rewrite E. clear E.
    assert (Hlen : forall ix, In ix (t_index (g_tab g)) -> length (times ++ ix) = length (t_names t)).
    { intros ix Hx. rewrite Forall_forall in Hf. rewrite app_length, (Hf ix Hx), Hl. unfold t, times, time_names. destruct e; reflexivity. }
    assert (Hw : well_indexed t).
    { split; [|split].
      - unfold t, time_names. cbn [t_names]. destruct e; cbn [app]; repeat constructor; cbn; intuition discriminate.
      - unfold t. cbn [t_index t_rows]. rewrite map_length. exact Hil.
      - apply Forall_forall. intros ix Hx. apply in_map_iff in Hx. destruct Hx as (ix' & <- & Hx). apply Hlen. exact Hx. }
    assert (Hi : In "cell_id"%string (t_names t)) by (apply in_or_app; right; left; reflexivity).
    assert (Hl1 : (1 < length (t_names t))%nat) by (unfold t, time_names; cbn [t_names]; destruct e; cbn; lia).
    destruct (operation_spec g t Hcl Hw Hc Hi Hl1) as (g' & Hg' & (R1 & R2 & R3 & R4 & R5 & R6 & R7) & H3 & H4 & H5 & H6).
    exists g'. split; [exact Hg'|]. split; [rewrite (R7 (time_names e)); reflexivity|].
    split; [split; [rewrite H3; apply class_of; exact Hc | split; [rewrite R2; exact Hc | exact R3]]|].
    split; [exact R1|]. split; [exact R2|]. split; [exact R6|]. split; [|split].
    - apply R5; [discriminate|]. apply (level_of_intro _ _ 0); [unfold t, time_names; destruct e; reflexivity|]. unfold t. cbn [t_index t_rows].
      apply forall2_const; [rewrite map_length; exact Hil|]. intros x Hx. apply in_map_iff in Hx. destruct Hx as (ix & <- & _). unfold times, the_start. rewrite Es. destruct e; reflexivity.
    - intros ->. apply R5; [discriminate|]. apply (level_of_intro _ _ 1); [reflexivity|]. unfold t. cbn [t_index t_rows].
      apply forall2_const; [rewrite map_length; exact Hil|]. intros x Hx. apply in_map_iff in Hx. destruct Hx as (ix & <- & _). unfold times, the_end. destruct (g_end g) eqn:Ee; [reflexivity | elim (He eq_refl); reflexivity].
    - split; [exact H3|]. split; [exact H4|]. split; [rewrite H5; exact Es | exact H6].
  Qed.

  (** ** pd.concat of grids with the same level names *)
  Lemma union_incl a b : incl a (union_columns a b).
  Proof. intros x H. apply in_or_app. left. exact H. Qed.
  Lemma union_fold_incl ls : forall a, incl a (fold_left union_columns ls a).
  Proof. induction ls as [|b ls IH]; intros a; cbn [fold_left]; [apply incl_refl|]. eapply incl_tran; [apply union_incl | apply IH]. Qed.
  Lemma mem_true x a : mem x a = true <-> In x a.
  Proof. unfold mem. rewrite existsb_exists. split; [intros (y & Hy & E); apply String.eqb_eq in E; congruence|intros H; exists x; split; [exact H|apply String.eqb_refl]]. Qed.
  Lemma union_in a b x : In x (union_columns a b) <-> In x a \/ In x b.
  Proof.
    unfold union_columns. rewrite in_app_iff, filter_In, negb_true_iff. split; [tauto|]. intros [H|H]; [tauto|]. destruct (mem x a) eqn:E; [left; apply mem_true; exact E|tauto].
  Qed.
  Lemma disjoint_nodup {A} (a l : list A) : NoDup a -> NoDup l -> (forall x, In x a -> ~ In x l) -> NoDup (a ++ l).
  Proof.
    induction a as [|x a IH]; intros Ha Hl Hd; [exact Hl|]. inversion_clear Ha as [|? ? N Ha']. cbn [app]. constructor.
    - rewrite in_app_iff. intros [K|K]; [contradiction|]. apply (Hd x (or_introl eq_refl) K).
    - apply IH; auto. intros y Hy. apply Hd. right. exact Hy.
  Qed.
  Lemma union_nodup a b : NoDup a -> NoDup b -> NoDup (union_columns a b).
  Proof.
    intros Ha Hb. apply disjoint_nodup; [exact Ha|apply NoDup_filter; exact Hb|]. intros x Hx K. apply filter_In in K. destruct K as [_ K]. rewrite (proj2 (mem_true x a) Hx) in K. discriminate.
  Qed.
  Lemma union_fold ls : forall a x, In x (fold_left union_columns ls a) <-> In x a \/ exists b, In b ls /\ In x b.
  Proof.
    induction ls as [|b ls IH]; intros a x; cbn [fold_left]; [split; [auto|intros [H|(b & [] & _)]; exact H]|]. rewrite IH, union_in. split.
    - intros [[H|H]|(c & Hc & H)]; [auto|right; exists b; cbn; auto|right; exists c; cbn; auto].
    - intros [H|(c & [<-|Hc] & H)]; [auto|auto|right; exists c; auto].
  Qed.
  Lemma union_fold_nodup ls : forall a, NoDup a -> Forall (fun b : list string => NoDup b) ls -> NoDup (fold_left union_columns ls a).
  Proof. induction ls as [|b ls IH]; intros a Ha H; [exact Ha|]. inversion_clear H. cbn [fold_left]. apply IH; [apply union_nodup; assumption|assumption]. Qed.
  (** every column of one of the grids, once *)
  Definition all_columns (gs : list (grid xr)) (cols : list string) : Prop :=
    (forall c, In c cols <-> exists g, In g gs /\ In c (t_columns (g_tab g))) /\ (Forall (fun g => NoDup (t_columns (g_tab g))) gs -> NoDup cols).
  Lemma all_columns_union g gs : all_columns (g :: gs) (fold_left union_columns (map t_columns (map g_tab gs)) (t_columns (g_tab g))).
  Proof.
    split.
    - intros c. rewrite union_fold. split.
      + intros [H|(b & Hb & H)]; [exists g; cbn; auto|]. rewrite map_map in Hb. apply in_map_iff in Hb. destruct Hb as (h & <- & Hh). exists h. cbn. auto.
      + intros (h & [<-|Hh] & H); [auto|]. right. exists (t_columns (g_tab h)). split; [|exact H]. rewrite map_map. apply in_map_iff. exists h. auto.
    - intros H. inversion_clear H as [|? ? H1 H2]. apply union_fold_nodup; [exact H1|]. rewrite map_map. apply Forall_map. exact H2.
  Qed.
  Lemma all_columns_same gs gs' cols : Forall2 (fun g g' => t_columns (g_tab g') = t_columns (g_tab g)) gs gs' -> all_columns gs' cols -> all_columns gs cols.
  Proof.
    intros F [H1 H2]. split.
    - intros c. rewrite H1. clear - F. split.
      + intros (g & Hg & H). induction F as [|a b l l' E F IH]; [destruct Hg|]. destruct Hg as [<-|Hg]; [exists a; rewrite <- E; cbn; auto|]. destruct (IH Hg) as (h & Hh & K). exists h. cbn. auto.
      + intros (g & Hg & H). induction F as [|a b l l' E F IH]; [destruct Hg|]. destruct Hg as [<-|Hg]; [exists b; rewrite E; cbn; auto|]. destruct (IH Hg) as (h & Hh & K). exists h. cbn. auto.
    - intros H. apply H2. clear - F H. induction F as [|a b l l' E F IH]; [constructor|]. inversion_clear H. constructor; [rewrite E; assumption|auto].
  Qed.
  Lemma forall2_concat {A B} (P : A -> B -> Prop) ls ls' : Forall2 (Forall2 P) ls ls' -> Forall2 P (concat ls) (concat ls').
  Proof. induction 1 as [|l l' ls ls' H H' IH]; cbn [concat]; [constructor | apply Forall2_app; assumption]. Qed.
  Lemma concat_spec g gs names k : Forall (fun h => rate_grid h /\ t_names (g_tab h) = names) (g :: gs) -> In "cell_id"%string names -> (1 < length names)%nat ->
    exists g1 g2, pd_concat srt (g :: gs) = Ok g1 /\ new_grid srt k (g_tab g1) None None None None = Ok g2 /\
      t_rows (g_tab g2) = all_rows (g :: gs) /\ (incl required_columns (t_columns (g_tab g2)) /\ all_columns (g :: gs) (t_columns (g_tab g2))) /\
      (exists ids, level_of (g_tab g2) "cell_id" (map id_of ids) /\ numbers_cells (all_rows (g :: gs)) ids) /\
      (forall n f, n <> "cell_id"%string -> In n names -> Forall (fun h => level_of (g_tab h) n (f h)) (g :: gs) -> level_of (g_tab g2) n (concat (map f (g :: gs)))) /\
      (forall n, In n (t_names (g_tab g2)) <-> In n names) /\ well_indexed (g_tab g2) /\
      g_cls g2 = k /\ g_name g2 = None /\ recorded (g_tab g2) None None (g_start g2) (g_end g2).
  Proof.
    intros Hall Hi Hl. rewrite Forall_forall in Hall.
    set (t := mktab names (concat (map t_index (map g_tab (g :: gs)))) (fold_left union_columns (map t_columns (map g_tab gs)) (t_columns (g_tab g))) (concat (map t_rows (map g_tab (g :: gs))))).
    assert (Hg : rate_grid g /\ t_names (g_tab g) = names) by (apply Hall; left; reflexivity).
    assert (Et : concat_tables (map g_tab (g :: gs)) = Ok t) by (unfold t; rewrite <- (proj2 Hg); reflexivity).
    assert (Er : t_rows t = all_rows (g :: gs)) by (unfold t, all_rows; cbn [t_rows]; rewrite map_map; reflexivity).
    assert (Hw : well_indexed t).
    { split; [|split].
      - unfold t. cbn [t_names]. destruct Hg as ((_ & _ & Hn & _) & <-). exact Hn.
      - unfold t. cbn [t_index t_rows]. rewrite !map_map. assert (H : Forall (fun h => rate_grid h /\ t_names (g_tab h) = names) (g :: gs)) by (apply Forall_forall; exact Hall).
        clear -H. induction H as [|h l ((_ & _ & _ & Hh & _) & _) H IH]; [reflexivity|]. cbn [map concat]. rewrite !app_length, Hh, IH. reflexivity.
      - unfold t. cbn [t_index t_names]. apply Forall_forall. intros ix Hx. apply in_concat in Hx. destruct Hx as (l & Hll & Hx). rewrite map_map in Hll. apply in_map_iff in Hll. destruct Hll as (h & <- & Hh).
        destruct (Hall h Hh) as ((_ & _ & _ & _ & Hf) & <-). rewrite Forall_forall in Hf. apply Hf. exact Hx. }
    assert (Hc : incl required_columns (t_columns t)).
    { destruct Hg as ((_ & Hc & _) & _). eapply incl_tran; [exact Hc | apply union_fold_incl]. }
    destruct (operation_spec g t (proj1 (proj1 Hg)) Hw Hc Hi Hl) as (g1 & Hg1 & (R1 & R2 & R3 & R4 & R5 & R6 & R7) & H3 & _).
    assert (Hl1 : (1 < length (t_names (g_tab g1)))%nat).
    { destruct Hw as (Hn & _). destruct R3 as (Hn' & _). assert (length (t_names t) = length (t_names (g_tab g1))); [|cbn [t t_names] in *; lia].
      apply Permutation_length. apply NoDup_Permutation; auto. intros x. symmetry. apply R4. }
    destruct (new_grid_spec srt Hsrt k (g_tab g1) None None None None R3 ltac:(rewrite R2; exact Hc) (proj2 (R4 _) Hi) Hl1) as (g2 & Hg2 & (S1 & S2 & S3 & S4 & S5 & S6 & S7) & K1 & K2 & K3 & _).
    exists g1, g2. split; [unfold pd_concat; rewrite Et; cbn [rbind]; exact Hg1|]. split; [exact Hg2|].
    split; [rewrite S1, R1; exact Er|]. split; [rewrite S2, R2; split; [exact Hc|apply all_columns_union]|]. split.
    { destruct S6 as (ids & A1 & A2). exists ids. rewrite R1, Er in A2. auto. }
    split; [|split; [intros n; rewrite S4, R4; reflexivity | auto]].
    intros n f Hne Hin Hf. apply S5; [exact Hne|]. apply R5; [exact Hne|].
    apply In_nth_error in Hin. destruct Hin as [i Hin]. apply (level_of_intro _ _ i); [exact Hin|]. unfold t. cbn [t_index]. apply forall2_concat.
    assert (H : Forall (fun h => rate_grid h /\ t_names (g_tab h) = names) (g :: gs)) by (apply Forall_forall; exact Hall).
    clear -Hf H Hin. induction Hf as [|h l Hh Hf IH]; [constructor|]. inversion H as [|? ? ((_ & _ & Hnd & _) & Hnames) H']; subst. cbn [map]. constructor; [|apply IH; exact H'].
    inversion Hh as [j vs Hj Hv]; subst. assert (j = i) by (eapply nodup_nth; [exact Hnd | exact Hj | exact Hin]). subst. exact Hv.
  Qed.

  (** ** C144: the time index *)
  Theorem C144_add_time_index g (e : bool) : rate_grid g -> index_levels g = 1%nat -> g_start g <> None -> (e = true -> g_end g <> None) ->
    exists g', add_time_index srt g e = Ok g' /\
      t_names (g_tab g') = (if e then ["starttime"; "endtime"; "cell_id"] else ["starttime"; "cell_id"])%string /\
      t_rows (g_tab g') = t_rows (g_tab g) /\ t_columns (g_tab g') = t_columns (g_tab g) /\
      (exists ids, level_of (g_tab g') "cell_id" (map id_of ids) /\ numbers_cells (t_rows (g_tab g)) ids) /\
      level_of (g_tab g') "starttime" (map (fun _ => the_start g) (t_rows (g_tab g))) /\
      (e = true -> level_of (g_tab g') "endtime" (map (fun _ => the_end g) (t_rows (g_tab g)))) /\
      g_name g' = g_name g /\ g_start g' = g_start g /\ g_end g' = g_end g.
  Proof.
    intros Hg Hl Hs He. destruct (add_time_spec g e Hg Hl Hs He) as (g' & H0 & H1 & _ & H2 & H3 & H4 & H5 & H6 & _ & H7 & H8 & H9).
    exists g'. split; [exact H0|]. split; [rewrite H1; destruct e; reflexivity|]. split; [exact H2|]. split; [exact H3|]. split; [exact H4|].
    split; [exact H5|]. split; [exact H6|]. split; [exact H7|]. split; [exact H8 | exact H9].
  Qed.
  Theorem C144_add_time_index_errors g (e : bool) : ~ incl required_columns (t_columns (g_tab g)) \/ g_start g = None \/ (e = true /\ g_end g = None) ->
    add_time_index srt g e = Err AttributeError.
  Proof.
    intros H. unfold add_time_index. destruct (check_required_cols (t_columns (g_tab g)) grid_columns) eqn:E; [|reflexivity]. cbn [negb].
    apply has_columns in E. destruct (g_start g) as [s|]; [|reflexivity]. destruct H as [H|[H|[-> ->]]]; [contradiction | discriminate | reflexivity].
  Qed.

  (** ** C144: grids without a time index, one after the other *)
  Lemma forall2_in_r {A B} (P : A -> B -> Prop) l l' y : Forall2 P l l' -> In y l' -> exists x, In x l /\ P x y.
  Proof. induction 1 as [|a b l l' Hab H IH]; intros Hy; [contradiction|]. destruct Hy as [<-|Hy]; [exists a; cbn; auto|]. destruct (IH Hy) as (x & Hx & Hp). exists x. cbn. auto. Qed.
  Lemma mapM_add gs e : Forall (fun g => rate_grid g /\ index_levels g = 1%nat /\ g_start g <> None /\ (e = true -> g_end g <> None)) gs ->
    exists gs', mapM_r (fun g => add_time_index srt g e) gs = Ok gs' /\
      Forall2 (fun g g' => rate_grid g' /\ t_names (g_tab g') = time_names e ++ ["cell_id"%string] /\ t_rows (g_tab g') = t_rows (g_tab g) /\
        level_of (g_tab g') "starttime" (map (fun _ => the_start g) (t_rows (g_tab g))) /\
        (e = true -> level_of (g_tab g') "endtime" (map (fun _ => the_end g) (t_rows (g_tab g)))) /\ the_start g' = the_start g /\ the_end g' = the_end g) gs gs' /\
      Forall2 (fun g g' => t_columns (g_tab g') = t_columns (g_tab g)) gs gs'.
  Proof.
    induction 1 as [|g gs (H1 & H2 & H3 & H4) H IH]; [exists []; repeat split; constructor|].
    destruct (add_time_spec g e H1 H2 H3 H4) as (g' & K0 & K1 & K2 & K3 & K4 & _ & K5 & K6 & _ & _ & K8 & K9).
    destruct IH as (gs' & Hgs & Hf & Hcol). exists (g' :: gs'). cbn [mapM_r]. rewrite K0. cbn [rbind]. rewrite Hgs. cbn [rbind]. split; [reflexivity|]. split; [|constructor; assumption].
    constructor; [|exact Hf]. split; [exact K2|]. split; [exact K1|]. split; [exact K3|]. split; [exact K5|]. split; [exact K6|]. unfold the_start, the_end. rewrite K8, K9. auto.
  Qed.
  Theorem C144_concat k gs : gs <> [] -> Forall (fun g => rate_grid g /\ index_levels g = 1%nat /\ g_start g <> None) gs ->
    let ends := forall g, In g gs -> g_end g <> None in
    exists r ids, concat_grids srt k gs = Ok r /\ g_cls r = k /\ g_name r = None /\
      t_rows (g_tab r) = all_rows gs /\
      level_of (g_tab r) "cell_id" (map id_of ids) /\ numbers_cells (all_rows gs) ids /\
      level_of (g_tab r) "starttime" (for_each_row the_start gs) /\ least (for_each_row the_start gs) (g_start r) /\
      (ends -> level_of (g_tab r) "endtime" (for_each_row the_end gs) /\ greatest (for_each_row the_end gs) (g_end r)) /\
      (~ ends -> ~ In "endtime"%string (t_names (g_tab r)) /\ greatest (for_each_row the_start gs) (g_end r)) /\
      all_columns gs (t_columns (g_tab r)).
  Proof.
    intros Hne Hall ends. set (e := forallb has_end gs).
    assert (He : e = true <-> ends).
    { unfold e, ends. rewrite forallb_forall. unfold has_end. split; intros H g Hg; specialize (H g Hg); destruct (g_end g); congruence. }
    assert (Hall' : Forall (fun g => rate_grid g /\ index_levels g = 1%nat /\ g_start g <> None /\ (e = true -> g_end g <> None)) gs).
    { rewrite Forall_forall in *. intros g Hg. destruct (Hall g Hg) as (A & B & C). repeat (split; [assumption|]). intros K. apply (proj1 He K). exact Hg. }
    assert (Ee : forallb has_end gs = e) by reflexivity. clearbody e.
    destruct (mapM_add gs e Hall') as (gs' & Hgs' & Hf & Hcol).
    destruct gs' as [|g' gs'']; [inversion Hf; congruence|].
    assert (Hn : In "cell_id"%string (time_names e ++ ["cell_id"%string])) by (apply in_or_app; right; left; reflexivity).
    destruct (concat_spec g' gs'' (time_names e ++ ["cell_id"%string]) k) as (g1 & r & P1 & P2 & P3 & (_ & P4) & (ids & P5 & P5') & P6 & P7 & P8 & P9 & P10 & P11).
    { apply Forall_forall. intros h Hh. destruct (forall2_in_r _ _ _ h Hf Hh) as (_ & _ & Hr & Hr' & _). auto. }
    { exact Hn. } { unfold time_names. destruct e; cbn; lia. }
    assert (Erows : all_rows (g' :: gs'') = all_rows gs).
    { clear -Hf. unfold all_rows. f_equal. induction Hf as [|a b l l' (_ & _ & Hab & _) Hl IH]; [reflexivity|]. cbn [map]. rewrite Hab, IH. reflexivity. }
    assert (Ef : forall f : grid xr -> xr, (forall a b, the_start b = the_start a /\ the_end b = the_end a -> f b = f a) -> concat (map (fun g => map (fun _ => f g) (t_rows (g_tab g))) (g' :: gs'')) = for_each_row f gs).
    { intros f Hff. unfold for_each_row. f_equal. clear -Hf Hff. induction Hf as [|a b l l' (_ & _ & Hab & _ & _ & Hs) Hl IH]; [reflexivity|]. cbn [map]. rewrite Hab, IH, (Hff a b Hs). reflexivity. }
    assert (Ls : level_of (g_tab r) "starttime" (for_each_row the_start gs)).
    { rewrite <- Ef by (intros a b [H _]; exact H). apply P6; [discriminate | unfold time_names; destruct e; left; reflexivity|].
      clear -Hf. induction Hf as [|a b l l' (_ & _ & Hab & Hs & _ & Ht & _) Hl IH]; constructor; [|exact IH]. rewrite Hab, Ht. exact Hs. }
    assert (Le : e = true -> level_of (g_tab r) "endtime" (for_each_row the_end gs)).
    { intros Het. rewrite <- Ef by (intros a b [_ H]; exact H). apply P6; [discriminate | unfold time_names; rewrite Het; right; left; reflexivity|].
      clear -Hf Het. induction Hf as [|a b l l' (_ & _ & Hab & _ & Hs & _ & Ht) Hl IH]; constructor; [|exact IH]. rewrite Hab, Ht. apply Hs. exact Het. }
    assert (In_s : In "starttime"%string (t_names (g_tab r))) by (apply P7; unfold time_names; destruct e; left; reflexivity).
    assert (In_e : In "endtime"%string (t_names (g_tab r)) <-> e = true).
    { rewrite P7. unfold time_names. destruct e; cbn; split; intros H; auto; intuition discriminate. }
    destruct P11 as [P11 _]. destruct (P11 In_s) as (vs & V1 & V2 & V3 & V4).
    assert (Uq : forall n vs ws, level_of (g_tab r) n vs -> level_of (g_tab r) n ws -> vs = ws).
    { intros n v1 v2 H1 H2. rewrite <- (level_values_spec _ _ _ P8 H1). apply (level_values_spec _ _ _ P8 H2). }
    rewrite (Uq _ _ _ V1 Ls) in *.
    exists r, ids. split.
    { unfold concat_grids. replace (forallb _ gs) with true.
      - rewrite Ee, Hgs'. cbn [rbind]. rewrite P1. cbn [rbind]. exact P2.
      - symmetry. apply forallb_forall. intros g Hg. rewrite Forall_forall in Hall. destruct (Hall g Hg) as (_ & Hl & _). apply Nat.eqb_eq. exact Hl. }
    split; [exact P9|]. split; [exact P10|]. split; [rewrite P3; exact Erows|]. split; [exact P5|]. split; [rewrite <- Erows; exact P5'|].
    split; [exact Ls|]. split; [rewrite V2; apply level_min_spec|]. split; [|split; [|exact (all_columns_same _ _ _ Hcol P4)]].
    - intros H. apply He in H. split; [apply Le; exact H|]. destruct (V3 (proj2 In_e H)) as (ws & W1 & W2). rewrite (Uq _ _ _ W1 (Le H)) in W2. rewrite W2. apply level_max_spec.
    - intros H. assert (Hn' : ~ In "endtime"%string (t_names (g_tab r))) by (rewrite In_e, He; exact H). split; [exact Hn'|]. rewrite (V4 Hn'). apply level_max_spec.
  Qed.

  (** grids that have a time index already *)
  Theorem C144_concat_indexed k gs names : gs <> [] -> (length names = 2 \/ length names = 3)%nat -> In "cell_id"%string names ->
    Forall (fun g => rate_grid g /\ t_names (g_tab g) = names) gs ->
    exists r ids, concat_grids srt k gs = Ok r /\ g_cls r = k /\ g_name r = None /\ t_rows (g_tab r) = all_rows gs /\
      level_of (g_tab r) "cell_id" (map id_of ids) /\ numbers_cells (all_rows gs) ids /\
      (forall n f, n <> "cell_id"%string -> In n names -> Forall (fun g => level_of (g_tab g) n (f g)) gs -> level_of (g_tab r) n (concat (map f gs))) /\ all_columns gs (t_columns (g_tab r)).
  Proof.
    intros Hne Hl Hi Hall. destruct gs as [|g gs]; [congruence|].
    destruct (concat_spec g gs names k Hall Hi ltac:(lia)) as (g1 & r & P1 & P2 & P3 & (_ & P4) & (ids & P5 & P5') & P6 & _ & _ & P9 & P10 & _).
    exists r, ids. split; [|split; [exact P9|]; split; [exact P10|]; split; [exact P3|]; split; [exact P5|]; split; [exact P5' | split; [exact P6 | exact P4]]].
    rewrite Forall_forall in Hall. assert (Hlev : forall h, In h (g :: gs) -> nlevels (g_tab h) = length names) by (intros h Hh; unfold nlevels; destruct (Hall h Hh) as (_ & ->); reflexivity).
    unfold concat_grids.
    replace (forallb (fun g0 => (nlevels (g_tab g0) =? 1)%nat) (g :: gs)) with false.
    - replace (forallb (fun g0 => (nlevels (g_tab g0) =? 2)%nat) (g :: gs) || forallb (fun g0 => (nlevels (g_tab g0) =? 3)%nat) (g :: gs))%bool with true; [rewrite P1; cbn [rbind]; exact P2|].
      symmetry. apply orb_true_iff. rewrite !forallb_forall. destruct Hl as [Hl|Hl]; [left|right]; intros h Hh; rewrite (Hlev h Hh), Hl; reflexivity.
    - symmetry. cbn [forallb]. rewrite (Hlev g (or_introl eq_refl)). replace (length names =? 1)%nat with false; [reflexivity|]. symmetry. apply Nat.eqb_neq. lia.
  Qed.
  Theorem C144_concat_errors k :
    concat_grids srt k [] = Err ValueError /\
    (forall gs g h, In g gs -> In h gs -> index_levels g <> index_levels h -> concat_grids srt k gs = Err ValueError) /\
    (forall gs g, In g gs -> (3 < index_levels g)%nat -> concat_grids srt k gs = Err ValueError) /\
    (forall gs, Forall (fun g => rate_grid g /\ index_levels g = 1%nat) gs -> (exists g, In g gs /\ g_start g = None) -> concat_grids srt k gs = Err AttributeError).
  Proof.
    assert (Hne : forall n gs g, In g gs -> index_levels g <> n -> forallb (fun g => (nlevels (g_tab g) =? n)%nat) gs = false).
    { intros n gs g Hg Hn. apply Bool.not_true_is_false. intros K. rewrite forallb_forall in K. apply Hn. apply Nat.eqb_eq. apply (K g Hg). }
    split; [reflexivity|]. split; [|split].
    - intros gs g h Hg Hh Hgh. unfold concat_grids.
      assert (H : forall n, forallb (fun g => (nlevels (g_tab g) =? n)%nat) gs = false).
      { intros n. destruct (Nat.eq_dec (index_levels g) n) as [E|E]; [apply (Hne n gs h Hh); congruence | apply (Hne n gs g Hg E)]. }
      rewrite !H. reflexivity.
    - intros gs g Hg H. unfold concat_grids. rewrite !(Hne _ gs g Hg) by lia. reflexivity.
    - intros gs Hall (g & Hg & Hs). unfold concat_grids. replace (forallb _ gs) with true.
      + set (e := forallb has_end gs). assert (He : forall g, In g gs -> e = true -> g_end g <> None).
        { intros h Hh K. unfold e in K. rewrite forallb_forall in K. specialize (K h Hh). unfold has_end in K. destruct (g_end h); congruence. }
        assert (M : mapM_r (fun g => add_time_index srt g e) gs = Err AttributeError); [|rewrite M; reflexivity].
        clearbody e. clear Hne. induction gs as [|h gs IH]; [contradiction|]. inversion Hall as [|? ? (Hr & Hl) Hall']; subst. cbn [mapM_r].
        destruct (g_start h) as [s|] eqn:Es.
        * destruct Hg as [-> |Hg]; [congruence|]. destruct (add_time_spec h e Hr Hl ltac:(congruence) (He h (or_introl eq_refl))) as (h' & -> & _). cbn [rbind].
          rewrite IH; auto. intros g0 Hg0. apply He. right. exact Hg0.
        * rewrite C144_add_time_index_errors by auto. reflexivity.
      + symmetry. apply forallb_forall. intros h Hh. rewrite Forall_forall in Hall. apply Nat.eqb_eq. apply (Hall h Hh).
  Qed.

  (** ** C145: the numbers of the cells change when rows are selected *)
  Theorem C145_selection_renumbers g t c : g_cls g <> PlainGrid -> well_indexed t -> incl required_columns (t_columns t) -> In "cell_id"%string (t_names t) -> (1 < length (t_names t))%nat ->
    complete_row c -> (forall row, In row (t_rows t) -> cell_bounds row = c) ->
    exists g', grid_operation srt g t = Ok g' /\ t_rows (g_tab g') = t_rows t /\ level_of (g_tab g') "cell_id" (map (fun _ => Fin 0) (t_rows t)).
  Proof.
    intros Hg Hw Hc Hi Hl Hk Hrow. destruct (operation_spec g t Hg Hw Hc Hi Hl) as (g' & Hg' & (R1 & _ & _ & _ & _ & (ids & R6 & Rl & Rs & Rc) & _) & _).
    exists g'. split; [exact Hg'|]. split; [exact R1|]. replace (map (fun _ => Fin 0) (t_rows t)) with (map id_of ids); [exact R6|].
    assert (Hz : forall a, In a ids -> a = 0%nat).
    { intros a Ha. destruct a as [|a]; [reflexivity|]. assert (H0 := Rc (S a) 0%nat Ha ltac:(lia)). apply In_nth_error in Ha, H0. destruct Ha as [i Hi1], H0 as [j Hj1].
      assert (Li := nth_lt _ _ _ Hi1). assert (Lj := nth_lt _ _ _ Hj1). rewrite Rl in Li, Lj. destruct (nth_some _ _ Li) as [r Hr], (nth_some _ _ Lj) as [q Hq].
      apply (proj2 (proj1 (Rs i j r q _ _ Hr Hq Hi1 Hj1))). right. rewrite (Hrow r), (Hrow q) by (eapply nth_error_In; eassumption). auto. }
    clear -Rl Hz. revert Rl. generalize (t_rows t). revert Hz. induction ids as [|a ids IH]; intros Hz [|x l] Hlen; try discriminate Hlen; [reflexivity|]. cbn [map].
    rewrite (Hz a (or_introl eq_refl)), IH with (l := l); [reflexivity | intros b Hb; apply Hz; right; exact Hb | cbn in Hlen; lia].
  Qed.
End C.
