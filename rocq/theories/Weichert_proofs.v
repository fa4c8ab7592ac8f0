(** * The Weichert model over exact reals *)
From Coq Require Import Reals Lra List Lia ZArith Sorted Permutation Bool String.
From Verif Require Import Base Num XR RList SortLib BValue_model Spec_BValue Likelihood Periods_model Spec_Periods Weichert_real Periods_proofs.
Import ListNotations.
Open Scope R_scope.

(** ** completeness years *)
Lemma count_below tb m : rising_mags tb ->
  match List.length (filter (fun r : R * R => rlt (fst r) m) tb) with O => None | S i => nth_error tb i end = find (fun r => rlt (fst r) m) (rev tb).
Proof.
  intros H. induction tb as [|r tb IH] using rev_ind; [reflexivity|].
  rewrite rev_unit. cbn [find]. rewrite filter_app, app_length. cbn [filter].
  assert (Hs : rising_mags tb /\ Forall (fun x => fst x <= fst r) tb).
  { clear IH. induction tb as [|x tb IH]; [split; constructor|]. cbn [app] in H. inversion_clear H as [|? ? H1 F]. destruct (IH H1) as [A B].
    apply Forall_app in F. destruct F as [F1 F2]. split; [constructor; assumption|]. constructor; [inversion_clear F2; assumption|exact B]. }
  destruct Hs as [Hs F]. specialize (IH Hs). destruct (rlt (fst r) m) eqn:E; cbn [List.length].
  - assert (Ef : filter (fun r : R * R => rlt (fst r) m) tb = tb).
    { apply rlt_true in E. clear - F E. induction F as [|x tb Hx F IH]; [reflexivity|]. cbn [filter].
      replace (rlt (fst x) m) with true by (symmetry; apply rlt_true; lra). rewrite IH. reflexivity. }
    rewrite Ef. replace (List.length tb + 1)%nat with (S (List.length tb)) by lia.
    rewrite nth_error_app2 by lia. rewrite Nat.sub_diag. reflexivity.
  - rewrite Nat.add_0_r. rewrite <- IH. pose proof (filter_length_le' (fun r : R * R => rlt (fst r) m) tb).
    destruct (List.length (filter (fun r : R * R => rlt (fst r) m) tb)) as [|i]; [reflexivity|]. apply nth_error_app1. lia.
Qed.
Lemma start_emb tb m : rising_mags tb ->
  completeness_start (map emb tb) (Fin m) = match start_of tb m with Some y => Fin y | None => Fin (-1) end.
Proof.
  intros H. unfold completeness_start, searchsorted, start_of. rewrite fst_emb, filter_map_swap, map_length, filter_map_swap, map_length.
  rewrite <- (count_below tb m H).
  change (filter (fun x : R * R => nltb (Fin (fst x)) (Fin m)) tb) with (filter (fun r : R * R => rlt (fst r) m) tb).
  pose proof (filter_length_le' (fun r : R * R => rlt (fst r) m) tb) as L.
  destruct (List.length (filter (fun r : R * R => rlt (fst r) m) tb)) as [|i]; [reflexivity|].
  rewrite nth_error_map. destruct (nth_error tb i) as [r|] eqn:E; [reflexivity|]. apply nth_error_None in E. lia.
Qed.
Lemma complete_emb tb e : rising_mags tb -> is_complete (map emb tb) (emb e) = counts tb e.
Proof.
  intros H. unfold is_complete, counts. cbn [emb fst snd]. rewrite start_emb by exact H. destruct (start_of tb (fst e)) as [y|].
  - rewrite x_zero, x_ltb, x_sub, x_leb. f_equal. destruct (rle y (snd e)) eqn:E.
    + apply rle_true in E. apply rle_true. lra.
    + apply rle_false in E. apply rle_false. lra.
  - rewrite x_zero, x_ltb. replace (rlt 0 (-1)) with false; [reflexivity|]. symmetry. apply rlt_false. lra.
Qed.
Lemma counts_above tb e : rising_mags tb -> counts tb e = true -> lowest tb < fst e.
Proof.
  intros H. unfold counts, start_of. destruct (find _ (rev tb)) as [r|] eqn:E; [|discriminate]. intros _.
  apply find_some in E. destruct E as [Hi E]. apply rlt_true in E. apply in_rev in Hi.
  destruct tb as [|r0 tb]; [destruct Hi|]. inversion_clear H as [|? ? H1 F]. rewrite Forall_forall in F. cbn [lowest].
  destruct Hi as [->|Hi]; [exact E|]. apply F in Hi. lra.
Qed.
Lemma counts_start tb e : counts tb e = true -> exists y, start_of tb (fst e) = Some y /\ 0 < y <= snd e.
Proof.
  unfold counts. destruct (start_of tb (fst e)) as [y|]; [|discriminate]. intros H. apply andb_true_iff in H. destruct H as [A B].
  exists y. split; [reflexivity|]. split; [apply rlt_true; exact A|apply rle_true; exact B].
Qed.

(** ** bins *)
Section Bins.
  Variables (round_edge : xr -> xr) (label : R -> R).
  Hypothesis Hlabel : forall x, round_edge (Fin x) = Fin (label x).
  Lemma edge_fin lo d i : edge (Fin lo) (Fin d) i = Fin (lo + INR i * d).
  Proof. unfold edge. rewrite x_ofnat, x_mul, x_add. reflexivity. Qed.
  Lemma n_edges_spec lo hi d i : 0 < d -> ((i < n_edges (Fin lo) (Fin hi) (Fin d))%nat <-> lo + INR i * d < hi).
  Proof.
    intros Hd. unfold n_edges, nceilZ. rewrite x_sub, x_div by lra. rewrite x_opp, x_floorZ.
    set (q := (hi - lo) / d). pose proof (Int_part_spec (- q)) as S.
    assert (Eq : (lo + INR i * d < hi) <-> INR i < q).
    { unfold q. split; intros L.
      - apply Rmult_lt_reg_r with d; [exact Hd|]. replace ((hi - lo) / d * d) with (hi - lo) by (field; lra). lra.
      - apply Rmult_lt_compat_r with (r := d) in L; [|exact Hd]. replace ((hi - lo) / d * d) with (hi - lo) in L by (field; lra). lra. }
    rewrite Eq, INR_IZR_INZ. set (z := Int_part (- q)) in *. split; intros L.
    - assert (Hz : (Z.of_nat i <= - z - 1)%Z) by lia. apply IZR_le in Hz. rewrite minus_IZR, opp_IZR in Hz. lra.
    - assert (Hz : IZR (Z.of_nat i) < IZR (- z)) by (rewrite opp_IZR; lra). apply lt_IZR in Hz. lia.
  Qed.
  Definition bin_index (lo d m : R) : nat := Z.to_nat (Int_part ((m - lo) / d)).
  Lemma bin_left_index lo d m : 0 < d -> lo <= m -> bin_left lo d m = lo + INR (bin_index lo d m) * d
    /\ lo + INR (bin_index lo d m) * d <= m < lo + INR (S (bin_index lo d m)) * d.
  Proof.
    intros Hd Hm. unfold bin_left, bin_index. set (q := (m - lo) / d).
    assert (Hq : 0 <= q) by (apply Rmult_le_pos; [lra|left; apply Rinv_0_lt_compat; exact Hd]).
    pose proof (Int_part_spec q) as S. set (z := Int_part q) in *.
    assert (Hz : (0 <= z)%Z) by (assert (H : IZR (-1) < IZR z) by lra; apply lt_IZR in H; lia).
    assert (Ez : INR (Z.to_nat z) = IZR z) by (rewrite INR_IZR_INZ, Z2Nat.id by exact Hz; reflexivity).
    rewrite S_INR, Ez. split; [reflexivity|]. assert (Em : m = lo + q * d) by (unfold q; field; lra). 
    assert (L1 : IZR z * d <= q * d) by (apply Rmult_le_compat_r; lra).
    assert (L2 : q * d < (IZR z + 1) * d) by (apply Rmult_lt_compat_r; lra). lra.
  Qed.
  Lemma filter_single (p : nat -> bool) n j : (forall i, p i = true -> i = j) ->
    filter p (seq 0 n) = if (j <? n)%nat && p j then [j] else [].
  Proof.
    intros H. assert (G : forall k, filter p (seq k n) = if (k <=? j)%nat && (j <? k + n)%nat && p j then [j] else []).
    { induction n as [|n IH]; intros k; cbn [seq filter].
      - destruct (Nat.leb_spec k j), (Nat.ltb_spec j (k + 0)); try lia; reflexivity.
      - rewrite IH. destruct (p k) eqn:E.
        + apply H in E as E'. subst j. destruct (Nat.leb_spec (S k) k); [lia|]. rewrite E. cbn [andb].
          destruct (Nat.leb_spec k k); [|lia]. destruct (Nat.ltb_spec k (k + S n)); [|lia]. reflexivity.
        + destruct (Nat.eq_dec j k) as [->|N].
          * rewrite E, !andb_false_r. reflexivity.
          * replace (S k + n)%nat with (k + S n)%nat by lia. destruct (Nat.leb_spec (S k) j), (Nat.leb_spec k j); try lia; reflexivity. }
    rewrite (G 0%nat). reflexivity.
  Qed.
  Lemma cut_value lo hi d m : 0 < d -> lo <= m ->
    cut_left round_edge (Fin lo) (Fin hi) (Fin d) (Fin m) =
    if Rlt_dec (bin_left lo d m + d) hi then Some (Fin (label (bin_left lo d m))) else None.
  Proof.
    intros Hd Hm. destruct (bin_left_index lo d m Hd Hm) as (El & Hin). unfold cut_left.
    set (j := bin_index lo d m) in *.
    assert (Hp : forall i, (nleb (edge (Fin lo) (Fin d) i) (Fin m) && nltb (Fin m) (edge (Fin lo) (Fin d) (S i))) = true <-> i = j).
    { intros i. rewrite !edge_fin, x_leb, x_ltb, andb_true_iff, rle_true, rlt_true. split; [|intros ->; lra].
      intros [A B]. assert (A' : INR i < INR (S j)). { apply Rmult_lt_reg_r with d; [exact Hd|]. lra. }
      assert (B' : INR j < INR (S i)). { apply Rmult_lt_reg_r with d; [exact Hd|]. lra. }
      apply INR_lt in A'. apply INR_lt in B'. lia. }
    rewrite (filter_single _ _ j) by (intros i; apply Hp). rewrite (proj2 (Hp j) eq_refl), andb_true_r.
    pose proof (n_edges_spec lo hi d (S j) Hd) as Hn. rewrite S_INR in Hn.
    destruct (Rlt_dec (bin_left lo d m + d) hi) as [L|L].
    - replace (j <? Nat.pred (n_edges (Fin lo) (Fin hi) (Fin d)))%nat with true.
      + rewrite edge_fin, Hlabel, El. reflexivity.
      + symmetry. apply Nat.ltb_lt. assert ((S j < n_edges (Fin lo) (Fin hi) (Fin d))%nat) by (apply Hn; lra). lia.
    - replace (j <? Nat.pred (n_edges (Fin lo) (Fin hi) (Fin d)))%nat with false; [reflexivity|].
      symmetry. apply Nat.ltb_ge. destruct (Nat.le_gt_cases (Nat.pred (n_edges (Fin lo) (Fin hi) (Fin d))) j) as [?|G]; [assumption|exfalso].
      assert (G' : (S j < n_edges (Fin lo) (Fin hi) (Fin d))%nat) by lia. apply Hn in G'. lra.
  Qed.

  (** ** the counted events *)
  Lemma cut_all_ok lo hi d tb evs : 0 < d -> rising_mags tb -> lowest tb = lo ->
    (forall e, In e evs -> counts tb e = true) -> (forall e, In e evs -> bin_left lo d (fst e) + d < hi) ->
    cut_all round_edge (Fin lo) (Fin hi) (Fin d) (map emb tb) (map emb evs) = Ok (map emb (map (cell_of label tb d) evs)).
  Proof.
    intros Hd Hr Elo Hc Hb. induction evs as [|e evs IH]; [reflexivity|]. cbn [map cut_all]. cbn [emb fst].
    pose proof (Hc e (or_introl eq_refl)) as Hce. pose proof (counts_above tb e Hr Hce) as Hab. rewrite Elo in Hab.
    rewrite cut_value by lra. destruct (Rlt_dec _ _) as [L|L]; [|exfalso; apply L; apply Hb; left; reflexivity].
    rewrite IH by (intros; first [apply Hc | apply Hb]; right; assumption). cbn [rbind]. rewrite start_emb by exact Hr.
    destruct (counts_start tb e Hce) as (y & Ey & _). unfold cell_of at 2. rewrite Ey, Elo. reflexivity.
  Qed.
  Lemma cut_all_err lo hi d tb evs : 0 < d -> rising_mags tb -> lowest tb = lo ->
    (forall e, In e evs -> counts tb e = true) -> (exists e, In e evs /\ hi <= bin_left lo d (fst e) + d) ->
    cut_all round_edge (Fin lo) (Fin hi) (Fin d) (map emb tb) (map emb evs) = Err AttributeError.
  Proof.
    intros Hd Hr Elo Hc Hb. induction evs as [|e evs IH]; [destruct Hb as (e & [] & _)|]. cbn [map cut_all]. cbn [emb fst].
    pose proof (Hc e (or_introl eq_refl)) as Hce. pose proof (counts_above tb e Hr Hce) as Hab. rewrite Elo in Hab.
    rewrite cut_value by lra. destruct (Rlt_dec _ _) as [L|L]; [|reflexivity].
    rewrite IH; [reflexivity|intros; apply Hc; right; assumption|]. destruct Hb as (e' & [->|Hi] & Hb); [lra|exists e'; auto].
  Qed.
  Lemma filter_emb tb ev : rising_mags tb -> filter (is_complete (map emb tb)) (map emb ev) = map emb (filter (counts tb) ev).
  Proof. intros H. rewrite filter_map_swap. f_equal. apply filter_ext. intros e. apply complete_emb. exact H. Qed.
End Bins.

(** ** counting equal cells *)
Definition lex (a b : R * R) : Prop := fst a < fst b \/ (fst a = fst b /\ snd a <= snd b).
Definition lexb (a b : R * R) : bool := if Req_EM_T (fst a) (fst b) then rle (snd a) (snd b) else rle (fst a) (fst b).
Lemma lexb_spec a b : lexb a b = true <-> lex a b.
Proof.
  unfold lexb, lex. destruct (Req_EM_T (fst a) (fst b)) as [E|N]; rewrite rle_true; split; intros H; try lra.
Qed.
Fixpoint tally (l : list (R * R)) : list ((R * R) * nat) :=
  match l with
  | [] => []
  | k :: t => match tally t with
              | (k', n) :: r => if row_eqb k k' then (k', S n) :: r else (k, 1%nat) :: (k', n) :: r
              | [] => [(k, 1%nat)]
              end
  end.
Definition embn (r : (R * R) * nat) : (xr * xr) * nat := (emb (fst r), snd r).
Lemma key_eq_emb a b : key_eq (emb a) (emb b) = row_eqb a b.
Proof.
  unfold key_eq, row_eqb, emb. cbn [fst snd]. rewrite !x_eqb. unfold req. destruct (Req_EM_T (fst a) (fst b)), (Req_EM_T (snd a) (snd b)); reflexivity.
Qed.
Lemma key_le_emb a b : key_le (emb a) (emb b) = lexb a b.
Proof. unfold key_le, lexb, emb. cbn [fst snd]. rewrite x_eqb, !x_leb. unfold req. destruct (Req_EM_T (fst a) (fst b)); reflexivity. Qed.
Lemma count_emb l : count_keys (map emb l) = map embn (tally l).
Proof.
  induction l as [|k l IH]; [reflexivity|]. cbn [map count_keys tally]. rewrite IH. destruct (tally l) as [|[k' n] r]; [reflexivity|].
  cbn [map]. unfold embn at 1. cbn [fst snd]. rewrite key_eq_emb. destruct (row_eqb k k'); reflexivity.
Qed.
Lemma isort_emb l : isort key_le (map emb l) = map emb (isort lexb l).
Proof.
  assert (I : forall x l, insert_by key_le (emb x) (map emb l) = map emb (insert_by lexb x l)).
  { intros x m. induction m as [|y m IH]; [reflexivity|]. cbn [map insert_by]. rewrite key_le_emb. destruct (lexb x y); [reflexivity|]. cbn [map]. rewrite IH. reflexivity. }
  induction l as [|x l IH]; [reflexivity|]. cbn [map isort]. rewrite IH. apply I.
Qed.
Lemma row_eqb_eq a b : row_eqb a b = true <-> a = b.
Proof.
  unfold row_eqb. destruct a as [a1 a2], b as [b1 b2]. cbn [fst snd]. destruct (Req_EM_T a1 b1), (Req_EM_T a2 b2); split; intros H; try discriminate; try congruence; try (injection H; contradiction).
Qed.
Lemma tally_sum (f : R * R -> R) l : Rsum (map (fun r => INR (snd r) * f (fst r)) (tally l)) = Rsum (map f l).
Proof.
  induction l as [|k l IH]; [reflexivity|]. cbn [tally map]. rewrite Rsum_cons, <- IH. destruct (tally l) as [|[k' n] r].
  - cbn [map]. rewrite Rsum_cons. cbn [fst snd]. change (INR 1) with 1. ring.
  - destruct (row_eqb k k') eqn:E.
    + apply row_eqb_eq in E. subst k'. cbn [map]. rewrite !Rsum_cons. cbn [fst snd]. rewrite S_INR. ring.
    + cbn [map]. rewrite !Rsum_cons. cbn [fst snd]. change (INR 1) with 1. ring.
Qed.
Lemma tally_in k l : In k (map fst (tally l)) <-> In k l.
Proof.
  induction l as [|x l IH]; [reflexivity|]. cbn [tally]. destruct (tally l) as [|[k' n] r].
  - cbn [map In fst]. rewrite <- IH. cbn. tauto.
  - destruct (row_eqb x k') eqn:E.
    + apply row_eqb_eq in E. subst k'. cbn [map In fst] in *. rewrite <- IH. tauto.
    + cbn [map In fst] in *. rewrite <- IH. tauto.
Qed.
Lemma tally_pos r l : In r (tally l) -> (1 <= snd r)%nat.
Proof.
  revert r. induction l as [|x l IH]; intros r; [intros []|]. cbn [tally]. destruct (tally l) as [|[k' n] t].
  - intros [<-|[]]. cbn. lia.
  - destruct (row_eqb x k').
    + intros [<-|H]; [cbn; lia|apply IH; right; exact H].
    + intros [<-|H]; [cbn; lia|apply IH; exact H].
Qed.
Lemma lex_antisym a b : lex a b -> lex b a -> a = b.
Proof. destruct a, b. unfold lex. cbn. intros [H|[H1 H2]] [H'|[H1' H2']]; try lra. f_equal; lra. Qed.
Lemma lex_trans a b c : lex a b -> lex b c -> lex a c.
Proof. unfold lex. intros [H|[H1 H2]] [H'|[H1' H2']]; lra. Qed.
Lemma tally_sorted l : StronglySorted lex l -> StronglySorted (fun a b => lex (fst a) (fst b)) (tally l) /\ NoDup (map fst (tally l)).
Proof.
  induction 1 as [|k l H IH F]; [split; constructor|]. rewrite Forall_forall in F. destruct IH as [IH ND].
  assert (F' : forall r, In r (tally l) -> lex k (fst r)).
  { intros r Hr. apply F. apply tally_in. apply in_map. exact Hr. }
  cbn [tally]. destruct (tally l) as [|[k' n] r]; [split; repeat constructor; cbn; tauto|].
  destruct (row_eqb k k') eqn:E.
  - split; [|exact ND]. inversion_clear IH as [|? ? IH1 IHF]. constructor; assumption.
  - split.
    + constructor; [exact IH|]. apply Forall_forall. exact F'.
    + cbn [map fst]. constructor; [|exact ND]. intros Hi. cbn [map In fst] in Hi. destruct Hi as [->|Hi].
      * assert (E' : row_eqb k k = true) by (apply row_eqb_eq; reflexivity). congruence.
      * apply in_map_iff in Hi. destruct Hi as (q & Eq & Hq). inversion_clear IH as [|? ? IH1 IHF]. rewrite Forall_forall in IHF.
        apply IHF in Hq. cbn [fst] in Hq. rewrite Eq in Hq. pose proof (F' (k', n) (or_introl eq_refl)) as Hk. cbn [fst] in Hk.
        assert (k = k') by (apply lex_antisym; assumption). apply row_eqb_eq in H0. congruence.
Qed.
Lemma isort_lex l : StronglySorted lex (isort lexb l).
Proof.
  apply StronglySorted_impl with (P := leP lexb).
  - intros x y Hxy. apply lexb_spec. exact Hxy.
  - apply isort_sorted.
    + intros x y. destruct (lexb x y) eqn:E; [left; reflexivity|right]. apply lexb_spec. unfold lexb in E. unfold lex.
      destruct (Req_EM_T (fst x) (fst y)); apply rle_false in E; lra.
    + intros x y z Hx Hy. apply lexb_spec. apply lexb_spec in Hx. apply lexb_spec in Hy. eapply lex_trans; eassumption.
Qed.
