(** * C69, C101-C106, C110, C112: Weichert's estimator for unequal completeness periods *)
From Coq Require Import Reals Lra List Lia ZArith Sorted Permutation Bool String.
From Verif Require Import Base Num XR RList SortLib BValue_model Spec_BValue Likelihood Periods_model Spec_Periods Weichert_real Periods_proofs Weichert_proofs.
Import ListNotations.
Open Scope R_scope.

(** the label of a bin (pd.cut rounds the edges of its intervals), on reals *)
Definition xlabel (label : R -> R) (x : xr) : xr := match x with Fin r => Fin (label r) | _ => x end.
(** the call on finite data *)
Definition weichert (label : R -> R) minimize (ev tb : list (R * R)) (mag_max : R) (given : option R) (d : R) (par : string) : res (w_out xr) :=
  estimate_b_weichert (xlabel label) minimize (map Fin (map fst ev)) (map Fin (map snd ev)) (map emb tb) (Fin mag_max) (option_map Fin given) (Fin d) par.
(** a minimiser that finds a global minimum at a real number if there is one *)
Definition is_min (f : xr -> xr) (b : R) : Prop := forall b', nleb (f (Fin b)) (f (Fin b')) = true.
Definition good_minimizer (minimize : (xr -> xr) -> xr -> xr) : Prop :=
  forall f x0, (exists b, is_min f b) -> exists b, minimize f x0 = Fin b /\ is_min f b.
(** what the theorems assume about the arguments *)
Definition admissible (label : R -> R) (ev tb : list (R * R)) (mag_max : R) (given : option R) (d ly : R) : Prop :=
  tb <> [] /\ rising_mags tb /\ 0 < d /\ last_year_is given (map snd ev) ly
  /\ (forall e, In e ev -> counts tb e = true -> in_bins tb mag_max d e /\ snd (cell_of label tb d e) < ly)
  /\ (exists e e', In e ev /\ In e' ev /\ counts tb e = true /\ counts tb e' = true /\ fst (cell_of label tb d e) <> fst (cell_of label tb d e')).
(** a list of the occupied cells *)
Definition occupied (label : R -> R) (ev tb : list (R * R)) (d : R) (cells : list (R * R)) : Prop :=
  NoDup cells /\ forall k, In k cells <-> exists e, In e ev /\ counts tb e = true /\ cell_of label tb d e = k.

(** ** the rows *)
Definition the_cells label (ev tb : list (R * R)) d : list (R * R) := map (cell_of label tb d) (filter (counts tb) ev).
Definition the_rows label ev tb d : list ((R * R) * nat) := tally (isort lexb (the_cells label ev tb d)).
Lemma rows_value label ev tb mag_max d : tb <> [] -> rising_mags tb -> 0 < d ->
  (forall e, In e ev -> counts tb e = true -> in_bins tb mag_max d e) ->
  complete_events (xlabel label) (map emb tb) (Fin mag_max) (Fin d) (map emb ev) = Ok (map embn (the_rows label ev tb d)).
Proof.
  intros Ht Hr Hd Hb. unfold complete_events.
  assert (E0 : match map emb tb with [] => nnan | r :: _ => fst r end = Fin (lowest tb)) by (destruct tb; [congruence|reflexivity]).
  rewrite E0, filter_emb by exact Hr. rewrite x_lit, x_add. replace (10 ^ Z.of_nat 2)%Z with 100%Z by reflexivity.
  rewrite (cut_all_ok (xlabel label) label (fun x => eq_refl)).
  - cbn [rbind]. rewrite isort_emb, count_emb. reflexivity.
  - exact Hd.
  - exact Hr.
  - reflexivity.
  - intros e He. apply filter_In in He. apply He.
  - intros e He. apply filter_In in He. apply Hb; apply He.
Qed.
Lemma rows_fst label ev tb d k : In k (map fst (the_rows label ev tb d)) <-> exists e, In e ev /\ counts tb e = true /\ cell_of label tb d e = k.
Proof.
  unfold the_rows. rewrite tally_in. split.
  - intros H. apply (Permutation_in _ (Permutation_sym (isort_perm lexb _))) in H. apply in_map_iff in H. destruct H as (e & E & H).
    apply filter_In in H. exists e. tauto.
  - intros (e & H1 & H2 & H3). apply (Permutation_in _ (isort_perm lexb _)). apply in_map_iff. exists e. split; [exact H3|]. apply filter_In. tauto.
Qed.
Lemma rows_sum label ev tb d (f : R * R -> R) :
  Rsum (map (fun r => INR (snd r) * f (fst r)) (the_rows label ev tb d)) = Rsum (map f (the_cells label ev tb d)).
Proof. unfold the_rows. rewrite tally_sum. apply Rsum_perm. apply Permutation_map. apply Permutation_sym. apply isort_perm. Qed.
Lemma rows_nodup label ev tb d : NoDup (map fst (the_rows label ev tb d)).
Proof. apply tally_sorted. apply isort_lex. Qed.
Lemma occupied_perm label ev tb d cells : occupied label ev tb d cells -> Permutation cells (map fst (the_rows label ev tb d)).
Proof.
  intros [ND H]. apply NoDup_Permutation; [exact ND|apply rows_nodup|]. intros k. rewrite H, rows_fst. reflexivity.
Qed.

(** C104: the rows the estimate is computed from: every counted event is in exactly one of them *)
Theorem C104_rows label ev tb mag_max d : tb <> [] -> rising_mags tb -> 0 < d ->
  (forall e, In e ev -> counts tb e = true -> in_bins tb mag_max d e) ->
  exists rows, complete_events (xlabel label) (map emb tb) (Fin mag_max) (Fin d) (map emb ev) = Ok (map embn rows)
    /\ NoDup (map fst rows)
    /\ (forall k, In k (map fst rows) <-> exists e, In e ev /\ counts tb e = true /\ cell_of label tb d e = k)
    /\ (forall k n, In (k, n) rows -> n = List.length (filter (fun e => counts tb e && row_eqb (cell_of label tb d e) k) ev))
    /\ list_sum (map snd rows) = List.length (filter (counts tb) ev).
Proof.
  intros Ht Hr Hd Hb. exists (the_rows label ev tb d). split; [apply rows_value; assumption|]. split; [apply rows_nodup|]. split; [apply rows_fst|]. split.
  - intros k n H. apply INR_eq. pose proof (rows_nodup label ev tb d) as ND. pose proof (rows_sum label ev tb d (fun k' => if row_eqb k' k then 1 else 0)) as E.
    transitivity (Rsum (map (fun r => INR (snd r) * (if row_eqb (fst r) k then 1 else 0)) (the_rows label ev tb d))).
    + clear E. induction (the_rows label ev tb d) as [|[k' n'] r IH]; [destruct H|]. cbn [map] in *. rewrite Rsum_cons. cbn [fst snd]. inversion_clear ND as [|? ? N1 N2].
      destruct H as [E|H].
      * injection E as -> ->. replace (row_eqb k k) with true by (symmetry; apply row_eqb_eq; reflexivity).
        replace (Rsum _) with 0; [lra|]. symmetry. transitivity (Rsum (map (fun _ : (R * R) * nat => 0) r)); [|rewrite Rsum_map_const; ring].
        apply Rsum_map_ext. intros q Hq. destruct (row_eqb (fst q) k) eqn:E; [|ring]. apply row_eqb_eq in E. exfalso. apply N1. rewrite <- E. apply in_map. exact Hq.
      * rewrite <- (IH H N2). destruct (row_eqb k' k) eqn:E; [|lra]. apply row_eqb_eq in E. subst k'. exfalso. apply N1. apply (in_map fst) in H. exact H.
    + rewrite E. unfold the_cells. rewrite map_map. clear. induction ev as [|e ev IH]; [reflexivity|]. cbn [filter]. destruct (counts tb e); cbn [map andb]; [|exact IH].
      rewrite Rsum_cons, IH. destruct (row_eqb (cell_of label tb d e) k); cbn [List.length]; [rewrite S_INR; lra|lra].
  - apply INR_eq. rewrite INR_list_sum, map_map. rewrite <- (map_length (cell_of label tb d)). fold (the_cells label ev tb d).
    rewrite <- (Rmult_1_r (INR (List.length _))), <- (Rsum_map_const 1), <- (rows_sum label ev tb d (fun _ => 1)). apply Rsum_map_ext. intros; ring.
Qed.

(** ** the objective *)
Definition rt (ly : R) (r : (R * R) * nat) : R := ly - snd (fst r).
Definition rm (d : R) (r : (R * R) * nat) : R := fst (fst r) + d / 2.
Definition rN (rows : list ((R * R) * nat)) : R := INR (list_sum (map snd rows)).
Definition rx (d : R) (rows : list ((R * R) * nat)) : R := Rsum (map (fun r => INR (snd r) * rm d r) rows) / rN rows.
Lemma row_t_fin ly r : row_t (Fin ly) (embn r) = Fin (rt ly r).
Proof. reflexivity. Qed.
Lemma row_m_fin d r : row_m (Fin d) (embn r) = Fin (rm d r).
Proof.
  unfold row_m, rm, embn, emb. cbn [fst snd]. rewrite x_lit, x_mul, x_add. replace (10 ^ Z.of_nat 1)%Z with 10%Z by reflexivity.
  apply f_equal. field.
Qed.
Lemma row_n_fin r : row_n (embn r) = Fin (INR (snd r)).
Proof. unfold row_n, embn. cbn [snd]. apply x_ofnat. Qed.
Lemma total_emb rows : total (map embn rows) = list_sum (map snd rows).
Proof. unfold total. rewrite map_map. reflexivity. Qed.
Lemma w_sum_fin f g rows : (forall r, f (embn r) = Fin (g r)) -> w_sum f (map embn rows) = Fin (Rsum (map g rows)).
Proof.
  intros H. unfold w_sum. rewrite map_map. rewrite (map_ext (fun r => f (embn r)) (fun r => Fin (g r))) by exact H.
  rewrite <- (map_map g Fin). apply x_sum.
Qed.
Section Rows.
  Variables (ly d : R) (rows : list ((R * R) * nat)).
  Hypothesis Ht : forall r, In r rows -> 0 < rt ly r.
  Hypothesis Hne : rows <> [].
  Hypothesis Hpos : forall r, In r rows -> (1 <= snd r)%nat.
  Lemma rN_pos : 0 < rN rows.
  Proof using Hne Hpos.
    clear Ht.
    unfold rN. rewrite INR_list_sum, map_map. apply Rsum_pos_nonempty; [destruct rows; [congruence|discriminate]|].
    intros x Hx. apply in_map_iff in Hx. destruct Hx as (r & <- & Hr). apply lt_0_INR. apply Hpos in Hr. lia.
  Qed.
  Lemma e_fin b r : nexp (nopp (Fin b) * row_m (Fin d) (embn r))%num = Fin (exp (- b * rm d r)).
  Proof. rewrite row_m_fin, x_opp, x_mul, x_exp. reflexivity. Qed.
  Lemma Z_fin b : w_sum (fun r => (row_t (Fin ly) r * nexp (nopp (Fin b) * row_m (Fin d) r))%num) (map embn rows) = Fin (Zf (rt ly) (rm d) rows b).
  Proof. apply w_sum_fin. intros r. rewrite e_fin, row_t_fin, x_mul. reflexivity. Qed.
  Lemma M_fin b : w_sum (fun r => (row_t (Fin ly) r * row_m (Fin d) r * nexp (nopp (Fin b) * row_m (Fin d) r))%num) (map embn rows) = Fin (Mf (rt ly) (rm d) rows b).
  Proof. apply w_sum_fin. intros r. rewrite e_fin, row_t_fin, row_m_fin, !x_mul. reflexivity. Qed.
  Lemma Q_fin b : w_sum (fun r => (row_t (Fin ly) r * square (row_m (Fin d) r) * nexp (nopp (Fin b) * row_m (Fin d) r))%num) (map embn rows) = Fin (Qf (rt ly) (rm d) rows b).
  Proof. apply w_sum_fin. intros r. unfold square. rewrite e_fin, row_t_fin, row_m_fin, !x_mul. reflexivity. Qed.
  Lemma objective_value b : objective (Fin ly) (Fin d) (map embn rows) (Fin b) = Fin (Rabs (mean_m (rt ly) (rm d) rows b - rx d rows)).
  Proof.
    pose proof (Zf_pos (rt ly) (rm d) rows b Hne Ht) as HZ. pose proof rN_pos as HN.
    unfold objective. rewrite M_fin, Z_fin, total_emb, x_ofnat.
    rewrite (w_sum_fin _ (fun r => INR (snd r) * rm d r)) by (intros r; rewrite row_n_fin, row_m_fin, x_mul; reflexivity).
    rewrite x_div by lra. fold (rN rows). rewrite x_div by lra. rewrite x_sub, x_abs. reflexivity.
  Qed.
  (** the average magnitude lies strictly between the extremes if there are two different ones *)
  Lemma rx_between : two_values (rm d) rows -> exists a a', In a rows /\ In a' rows /\ (forall z, In z rows -> rm d a <= rm d z <= rm d a') /\ rm d a < rx d rows < rm d a'.
  Proof.
    intros H2. pose proof rN_pos as HN.
    assert (Hmin : exists a, In a rows /\ forall z, In z rows -> rm d a <= rm d z).
    { clear - Hne. induction rows as [|r l IH]; [congruence|]. destruct l as [|r' l].
      - exists r. split; [left; reflexivity|]. intros z [<-|[]]. lra.
      - destruct IH as (a & Ha & IH); [discriminate|]. destruct (Rle_dec (rm d r) (rm d a)) as [L|L].
        + exists r. split; [left; reflexivity|]. intros z [<-|Hz]; [lra|]. apply IH in Hz. lra.
        + exists a. split; [right; exact Ha|]. intros z [<-|Hz]; [lra|]. apply IH; exact Hz. }
    assert (Hmax : exists a, In a rows /\ forall z, In z rows -> rm d z <= rm d a).
    { clear - Hne. induction rows as [|r l IH]; [congruence|]. destruct l as [|r' l].
      - exists r. split; [left; reflexivity|]. intros z [<-|[]]. lra.
      - destruct IH as (a & Ha & IH); [discriminate|]. destruct (Rle_dec (rm d a) (rm d r)) as [L|L].
        + exists r. split; [left; reflexivity|]. intros z [<-|Hz]; [lra|]. apply IH in Hz. lra.
        + exists a. split; [right; exact Ha|]. intros z [<-|Hz]; [lra|]. apply IH; exact Hz. }
    destruct Hmin as (a & Ha & Hmin). destruct Hmax as (a' & Ha' & Hmax). exists a, a'. split; [exact Ha|]. split; [exact Ha'|]. split; [intros; split; auto|].
    assert (Ex : rx d rows * rN rows = Rsum (map (fun r => INR (snd r) * rm d r) rows)) by (unfold rx; field; lra).
    assert (EN : forall c, c * rN rows = Rsum (map (fun r => INR (snd r) * c) rows)).
    { intros c. unfold rN. rewrite INR_list_sum, map_map. rewrite <- Rsum_map_scal. apply Rsum_map_ext. intros; ring. }
    assert (Hs : forall c : R, (exists r, In r rows /\ rm d r <> c) -> (forall r, In r rows -> c <= rm d r) -> c < rx d rows).
    { intros c (r0 & Hr0 & N) Hc. apply Rmult_lt_reg_r with (rN rows); [exact HN|]. rewrite Ex, EN.
      assert (P : forall x, In x (map (fun r => INR (snd r) * (rm d r - c)) rows) -> 0 <= x).
      { intros x Hx. apply in_map_iff in Hx. destruct Hx as (r & <- & Hr). apply Rmult_le_pos; [apply pos_INR|]. apply Hc in Hr. lra. }
      assert (E1 : Rsum (map (fun r => INR (snd r) * (rm d r - c)) rows) = Rsum (map (fun r => INR (snd r) * rm d r) rows) - Rsum (map (fun r => INR (snd r) * c) rows)).
      { clear. induction rows as [|r l IH]; cbn [map]; rewrite ?Rsum_cons; [unfold Rsum; cbn; ring|]. rewrite IH. ring. }
      destruct (Rle_lt_or_eq_dec _ _ (Rsum_nonneg _ P)) as [L|E]; [lra|exfalso].
      assert (E0 : INR (snd r0) * (rm d r0 - c) = 0) by (apply (Rsum_zero_all _ P (eq_sym E)); apply in_map_iff; exists r0; auto).
      apply Rmult_integral in E0. destruct E0 as [E0|E0]; [|lra]. apply Hpos in Hr0. apply le_INR in Hr0. change (INR 1) with 1 in Hr0. lra. }
    assert (Hs' : forall c : R, (exists r, In r rows /\ rm d r <> c) -> (forall r, In r rows -> rm d r <= c) -> rx d rows < c).
    { intros c (r0 & Hr0 & N) Hc. apply Rmult_lt_reg_r with (rN rows); [exact HN|]. rewrite Ex, EN.
      assert (P : forall x, In x (map (fun r => INR (snd r) * (c - rm d r)) rows) -> 0 <= x).
      { intros x Hx. apply in_map_iff in Hx. destruct Hx as (r & <- & Hr). apply Rmult_le_pos; [apply pos_INR|]. apply Hc in Hr. lra. }
      assert (E1 : Rsum (map (fun r => INR (snd r) * (c - rm d r)) rows) = Rsum (map (fun r => INR (snd r) * c) rows) - Rsum (map (fun r => INR (snd r) * rm d r) rows)).
      { clear. induction rows as [|r l IH]; cbn [map]; rewrite ?Rsum_cons; [unfold Rsum; cbn; ring|]. rewrite IH. ring. }
      destruct (Rle_lt_or_eq_dec _ _ (Rsum_nonneg _ P)) as [L|E]; [lra|exfalso].
      assert (E0 : INR (snd r0) * (c - rm d r0) = 0) by (apply (Rsum_zero_all _ P (eq_sym E)); apply in_map_iff; exists r0; auto).
      apply Rmult_integral in E0. destruct E0 as [E0|E0]; [|lra]. apply Hpos in Hr0. apply le_INR in Hr0. change (INR 1) with 1 in Hr0. lra. }
    destruct H2 as (u & v & Hu & Hv & N). split; [apply Hs|apply Hs'].
    - destruct (Req_dec (rm d u) (rm d a)) as [E|E]; [exists v|exists u]; split; auto. congruence.
    - exact Hmin.
    - destruct (Req_dec (rm d u) (rm d a')) as [E|E]; [exists v|exists u]; split; auto. congruence.
    - exact Hmax.
  Qed.
  Lemma solution : two_values (rm d) rows -> exists b, mean_m (rt ly) (rm d) rows b = rx d rows.
  Proof.
    intros H2. destruct (rx_between H2) as (a & a' & Ha & Ha' & Hb & Hx).
    apply (mean_onto (rt ly) (rm d) rows (rx d rows) a a'); assumption.
  Qed.
End Rows.
