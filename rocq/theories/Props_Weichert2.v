(** * C69, C101-C103, C105, C106, C110, C112: what Weichert's estimator returns *)
From Coq Require Import Reals Lra List Lia ZArith Sorted Permutation Bool String.
From Verif Require Import Base Num XR RList SortLib BValue_model Spec_BValue Likelihood Periods_model Spec_Periods Weichert_real Periods_proofs Weichert_proofs Props_KijkoSmit Props_Weichert.
Import ListNotations.
Open Scope R_scope.

Lemma admissible_rows label ev tb mm given d ly : admissible label ev tb mm given d ly ->
  let rows := the_rows label ev tb d in
  (forall r, In r rows -> 0 < rt ly r) /\ rows <> [] /\ (forall r, In r rows -> (1 <= snd r)%nat) /\ two_values (rm d) rows /\ ev <> [].
Proof.
  intros (Ht & Hr & Hd & Hly & Hb & e & e' & He & He' & Hc & Hc' & N) rows.
  assert (Hk : forall e, In e ev -> counts tb e = true -> exists r, In r rows /\ fst r = cell_of label tb d e).
  { intros x Hx Hx'. assert (Hi : In (cell_of label tb d x) (map fst rows)) by (apply rows_fst; exists x; auto).
    apply in_map_iff in Hi. destruct Hi as (r & E & Hi). exists r. auto. }
  destruct (Hk e He Hc) as (r & Hir & Er). destruct (Hk e' He' Hc') as (r' & Hir' & Er').
  split; [|split; [|split; [|split]]].
  - intros q Hq. assert (Hi : In (fst q) (map fst rows)) by (apply in_map; exact Hq). apply rows_fst in Hi. destruct Hi as (x & H1 & H2 & H3).
    unfold rt. rewrite <- H3. destruct (Hb x H1 H2) as [_ L]. lra.
  - intros E. rewrite E in Hir. destruct Hir.
  - intros q Hq. apply tally_pos in Hq. exact Hq.
  - exists r, r'. split; [exact Hir|]. split; [exact Hir'|]. unfold rm. rewrite Er, Er'. lra.
  - intros ->. destruct He.
Qed.
Definition rate_of (ly d : R) (rows : list ((R * R) * nat)) (beta : R) : R :=
  rN rows * (Rsum (map (fun r => exp (- beta * rm d r)) rows) / Zf (rt ly) (rm d) rows beta).
Definition left_of (rows : list ((R * R) * nat)) : R := match rows with [] => 0 | r :: _ => fst (fst r) end.
Lemma weichert_value label minimize ev tb mm given d ly beta : admissible label ev tb mm given d ly ->
  let rows := the_rows label ev tb d in
  minimize (objective (Fin ly) (Fin d) (map embn rows)) (Fin (ln 10)) = Fin beta ->
  0 < rate_of ly d rows beta /\
  weichert label minimize ev tb mm given d "b_value" =
    Ok (mkw (Fin (beta / ln 10)) (Fin (sqrt (1 / (rN rows * var_m (rt ly) (rm d) rows beta)) / ln 10))
         (Fin (rate_of ly d rows beta)) (Fin (rate_of ly d rows beta / sqrt (rN rows)))
         (Fin (ln (rate_of ly d rows beta) / ln 10 + beta / ln 10 * left_of rows))).
Proof.
  intros Had rows Hmin. destruct (admissible_rows _ _ _ _ _ _ _ Had) as (Htp & Hne & Hpos & H2 & He). fold rows in Htp, Hne, Hpos, H2.
  destruct Had as (Ht & Hr & Hd & Hly & Hb & _). pose proof log10pos as H10.
  pose proof (rN_pos rows Hne Hpos) as HN. pose proof (Zf_pos (rt ly) (rm d) rows beta Hne Htp) as HZ.
  pose proof (var_pos (rt ly) (rm d) rows beta H2 Htp) as HV.
  set (Es := Rsum (map (fun r => exp (- beta * rm d r)) rows)).
  assert (HE : 0 < Es).
  { apply Rsum_pos_nonempty; [destruct rows; [congruence|discriminate]|]. intros x Hx. apply in_map_iff in Hx. destruct Hx as (r & <- & _). apply exp_pos. }
  assert (Hrate : 0 < rate_of ly d rows beta) by (unfold rate_of; fold Es; apply Rmult_lt_0_compat; [exact HN|apply Rdiv_lt_0_compat; assumption]).
  split; [exact Hrate|]. unfold weichert, estimate_b_weichert. rewrite checks_ok by auto. cbn [rbind].
  rewrite (last_year_ok given ev ly Hly), zip_emb.
  rewrite (rows_value label ev tb mm d Ht Hr Hd) by (intros e H1 H3; apply (Hb e H1 H3)). cbn [rbind]. fold rows.
  rewrite x_ofZ, x_ln by lra. rewrite Hmin.
  assert (E1 : w_sum (fun r => nexp (nopp (Fin beta) * row_m (Fin d) r)%num) (map embn rows) = Fin Es) by (apply w_sum_fin; intros r; apply e_fin).
  rewrite E1, (Z_fin ly d rows), (M_fin ly d rows), (Q_fin ly d rows), total_emb, x_ofnat. fold (rN rows).
  assert (Er : map embn rows = match rows with [] => [] | r :: l => embn r :: map embn l end) by (destruct rows; reflexivity).
  rewrite x_div by lra. rewrite !x_mul. fold Es. change (rN rows * (Es / Zf (rt ly) (rm d) rows beta)) with (rate_of ly d rows beta).
  destruct rows as [|r0 rows0] eqn:Erows; [congruence|]. cbn [map]. rewrite <- Erows in *. clear Er.
  change (String.eqb "b_value" "b_value") with true. cbv iota. unfold beta_to_b_value, square. rewrite x_log10 by exact Hrate.
  rewrite x_ofZ, x_ln by lra. rewrite (x_div beta) by lra. rewrite !x_mul.
  set (Z := Zf (rt ly) (rm d) rows beta) in *. set (M := Mf (rt ly) (rm d) rows beta). set (Q := Qf (rt ly) (rm d) rows beta).
  rewrite (x_sqrt (Z * Z)) by (apply Rmult_le_pos; lra). rewrite sqrt_square by lra. rewrite x_mul, x_sub, x_one, x_div by lra.
  rewrite x_opp, x_mul.
  assert (Ev : M * M - Z * Q = - (Z * Z * var_m (rt ly) (rm d) rows beta)).
  { unfold var_m, mean_m. fold M Q Z. unfold Rsqr. field. lra. }
  set (V := var_m (rt ly) (rm d) rows beta) in *.
  assert (HZV : 0 < Z * Z * V) by (apply Rmult_lt_0_compat; [apply Rmult_lt_0_compat|]; lra).
  rewrite x_div by lra. rewrite Ev.
  replace (- (1 / rN rows) * (Z * Z) / - (Z * Z * V)) with (1 / (rN rows * V)) by (field; lra).
  assert (0 < 1 / (rN rows * V)) by (apply Rdiv_lt_0_compat; [lra|apply Rmult_lt_0_compat; assumption]).
  rewrite (x_sqrt (1 / (rN rows * V))) by lra. rewrite (x_sqrt (rN rows)) by lra. pose proof (sqrt_lt_R0 _ HN). rewrite !x_div by lra.
  change (fst (fst (embn r0))) with (Fin (fst (fst r0))). rewrite x_mul, x_add.
  assert (El : left_of rows = fst (fst r0)) by (rewrite Erows; reflexivity). rewrite El. reflexivity.
Qed.

(** ** the likelihood *)
Lemma cell_likelihood_form label ev tb mm given d ly cells : admissible label ev tb mm given d ly -> occupied label ev tb d cells ->
  let rows := the_rows label ev tb d in
  exists C, forall b, cell_likelihood cells (cell_of label tb d) ly d (filter (counts tb) ev) b = exp (C + loglik (rt ly) (rm d) rows (rN rows) (rx d rows) b).
Proof.
  intros Had Ho rows. destruct (admissible_rows _ _ _ _ _ _ _ Had) as (Htp & Hne & Hpos & H2 & He). fold rows in Htp, Hne, Hpos, H2.
  pose proof (rN_pos rows Hne Hpos) as HN.
  exists (Rsum (map (fun k => ln (ly - snd k)) (the_cells label ev tb d))). intros b.
  assert (EZ : Rsum (map (cell_weight ly d b) cells) = Zf (rt ly) (rm d) rows b).
  { rewrite (Rsum_perm _ (map (cell_weight ly d b) (map fst rows))) by (apply Permutation_map; apply occupied_perm; exact Ho).
    rewrite map_map. apply Rsum_map_ext. intros r _. reflexivity. }
  pose proof (Zf_pos (rt ly) (rm d) rows b Hne Htp) as HZ.
  assert (Hw : forall e, In e (filter (counts tb) ev) -> 0 < ly - snd (cell_of label tb d e)).
  { intros e Hi. apply filter_In in Hi. destruct Had as (_ & _ & _ & _ & Hb & _). destruct (Hb e (proj1 Hi) (proj2 Hi)) as [_ L]. lra. }
  unfold cell_likelihood. rewrite EZ. rewrite Rprod_exp.
  - f_equal. unfold loglik, rx.
    replace (rN rows * (- b * (Rsum (map (fun r => INR (snd r) * rm d r) rows) / rN rows) - ln (Zf (rt ly) (rm d) rows b)))
      with (- b * Rsum (map (fun r => INR (snd r) * rm d r) rows) - rN rows * ln (Zf (rt ly) (rm d) rows b)) by (field; lra).
    assert (EN : rN rows = INR (List.length (the_cells label ev tb d))).
    { unfold rN. rewrite INR_list_sum, map_map. rewrite <- (Rmult_1_r (INR (List.length _))), <- (Rsum_map_const 1), <- (rows_sum label ev tb d (fun _ => 1)).
      apply Rsum_map_ext. intros; ring. }
    assert (ES : Rsum (map (fun r => INR (snd r) * rm d r) rows) = Rsum (map (fun k => fst k + d / 2) (the_cells label ev tb d))) by exact (rows_sum label ev tb d (fun k => fst k + d / 2)).
    rewrite ES, EN.
    unfold the_cells. rewrite map_length, !map_map. clear - Hw HZ. revert Hw. set (lz := Zf (rt ly) (rm d) rows b) in *. clearbody lz.
    generalize (filter (counts tb) ev). intros l Hw. induction l as [|e l IH].
    + unfold Rsum. cbn. ring.
    + cbn [map List.length]. rewrite !Rsum_cons, IH by (intros; apply Hw; right; assumption). rewrite S_INR.
      pose proof (Hw e (or_introl eq_refl)) as Hwe. unfold cell_weight, Rdiv. rewrite ln_mult; [|apply Rmult_lt_0_compat; [exact Hwe|apply exp_pos]|apply Rinv_0_lt_compat; exact HZ].
      rewrite ln_mult by (auto using exp_pos). rewrite ln_exp, ln_Rinv by exact HZ. ring.
  - intros e Hi. apply Rdiv_lt_0_compat; [|exact HZ]. apply Rmult_lt_0_compat; [apply Hw; exact Hi|apply exp_pos].
Qed.
Lemma likelihood_max label ev tb mm given d ly cells beta : admissible label ev tb mm given d ly -> occupied label ev tb d cells ->
  mean_m (rt ly) (rm d) (the_rows label ev tb d) beta = rx d (the_rows label ev tb d) ->
  unique_maximiser (cell_likelihood cells (cell_of label tb d) ly d (filter (counts tb) ev)) beta.
Proof.
  intros Had Ho Eb y Ny. destruct (cell_likelihood_form _ _ _ _ _ _ _ _ Had Ho) as (C & E). rewrite !E. apply exp_increasing. apply Rplus_lt_compat_l.
  destruct (admissible_rows _ _ _ _ _ _ _ Had) as (Htp & Hne & Hpos & H2 & He).
  apply loglik_max; auto. apply rN_pos; assumption.
Qed.
Lemma good_min_solves label ev tb mm given d ly minimize x0 : admissible label ev tb mm given d ly -> good_minimizer minimize ->
  let rows := the_rows label ev tb d in
  exists beta, minimize (objective (Fin ly) (Fin d) (map embn rows)) x0 = Fin beta /\ mean_m (rt ly) (rm d) rows beta = rx d rows.
Proof.
  intros Had Hg rows. destruct (admissible_rows _ _ _ _ _ _ _ Had) as (Htp & Hne & Hpos & H2 & He). fold rows in Htp, Hne, Hpos, H2.
  destruct (solution ly d rows Htp Hne Hpos H2) as (b & Eb).
  destruct (Hg (objective (Fin ly) (Fin d) (map embn rows)) x0) as (beta & Emin & Hmin).
  - exists b. intros b'. rewrite !(objective_value ly d rows Htp Hne Hpos), x_leb. apply rle_true. rewrite Eb.
    replace (rx d rows - rx d rows) with 0 by ring. rewrite Rabs_R0. apply Rabs_pos.
  - exists beta. split; [exact Emin|]. specialize (Hmin b). rewrite !(objective_value ly d rows Htp Hne Hpos), x_leb in Hmin. apply rle_true in Hmin.
    rewrite Eb in Hmin. replace (rx d rows - rx d rows) with 0 in Hmin by ring. rewrite Rabs_R0 in Hmin.
    pose proof (Rabs_pos (mean_m (rt ly) (rm d) rows beta - rx d rows)) as P.
    assert (E0 : Rabs (mean_m (rt ly) (rm d) rows beta - rx d rows) = 0) by lra.
    destruct (Req_dec (mean_m (rt ly) (rm d) rows beta - rx d rows) 0) as [E|N]; [lra|]. apply Rabs_no_R0 in N. contradiction.
Qed.

(** C101: with a minimiser that finds the global minimum, the estimate is the unique maximum
    likelihood estimate given the occupied cells *)
Theorem C101_weichert_is_mle label ev tb mm given d ly cells : admissible label ev tb mm given d ly -> occupied label ev tb d cells ->
  exists beta, unique_maximiser (cell_likelihood cells (cell_of label tb d) ly d (filter (counts tb) ev)) beta
    /\ forall minimize, good_minimizer minimize -> exists o, weichert label minimize ev tb mm given d "b_value" = Ok o /\ w_b o = Fin (beta / ln 10).
Proof.
  intros Had Ho. destruct (admissible_rows _ _ _ _ _ _ _ Had) as (Htp & Hne & Hpos & H2 & He).
  destruct (solution ly d _ Htp Hne Hpos H2) as (b & Eb). exists b. pose proof (likelihood_max _ _ _ _ _ _ _ _ _ Had Ho Eb) as Hm. split; [exact Hm|].
  intros minimize Hg. destruct (good_min_solves label ev tb mm given d ly minimize (Fin (ln 10)) Had Hg) as (beta & Emin & Esol).
  destruct (weichert_value label minimize ev tb mm given d ly beta Had Emin) as (_ & E). eexists. split; [exact E|]. cbn [w_b].
  destruct (Req_dec beta b) as [->|N]; [reflexivity|]. pose proof (Hm beta N) as H1.
  pose proof (likelihood_max _ _ _ _ _ _ _ _ _ Had Ho Esol b (not_eq_sym N)) as H3. lra.
Qed.
(** C102: the function the code minimises falls strictly up to the estimate and rises strictly
    after it: there is no other local minimum in which a search could end *)
Theorem C102_one_minimum label ev tb mm given d ly : admissible label ev tb mm given d ly ->
  exists rows f beta, complete_events (xlabel label) (map emb tb) (Fin mm) (Fin d) (map emb ev) = Ok rows
    /\ (forall b, objective (Fin ly) (Fin d) rows (Fin b) = Fin (f b)) /\ f beta = 0
    /\ (forall b b', b < b' <= beta -> f b' < f b) /\ (forall b b', beta <= b < b' -> f b < f b').
Proof.
  intros Had. destruct (admissible_rows _ _ _ _ _ _ _ Had) as (Htp & Hne & Hpos & H2 & He).
  set (rows := the_rows label ev tb d) in *. destruct (solution ly d rows Htp Hne Hpos H2) as (beta & Eb).
  destruct Had as (Ht & Hr & Hd & Hly & Hb & _).
  exists (map embn rows), (fun b => Rabs (mean_m (rt ly) (rm d) rows b - rx d rows)), beta.
  split; [apply rows_value; auto; intros e H1 H3; apply (Hb e H1 H3)|]. split; [intros b; apply objective_value; assumption|].
  split; [rewrite Eb; replace (rx d rows - rx d rows) with 0 by ring; apply Rabs_R0|].
  pose proof (fun b b' => mean_decreasing (rt ly) (rm d) rows b b' H2 Htp) as Hd'.
  assert (Hle : forall b b', b <= b' -> mean_m (rt ly) (rm d) rows b' <= mean_m (rt ly) (rm d) rows b).
  { intros b b' [L| ->]; [left; apply Hd'; exact L|lra]. }
  split; intros b b' [L1 L2].
  - pose proof (Hd' b b' L1) as A. pose proof (Hle b' beta L2) as B. rewrite !Rabs_right by lra. lra.
  - pose proof (Hd' b b' L2) as A. pose proof (Hle beta b L1) as B. rewrite !Rabs_left1 by lra. lra.
Qed.
(** C103: the standard error is the inverse square root of the observed information *)
Theorem C103_weichert_std label ev tb mm given d ly cells minimize : admissible label ev tb mm given d ly -> occupied label ev tb d cells -> good_minimizer minimize ->
  exists o beta d1 d2, weichert label minimize ev tb mm given d "b_value" = Ok o /\ w_b o = Fin (beta / ln 10)
    /\ (forall b, derivable_pt_lim (fun b => ln (cell_likelihood cells (cell_of label tb d) ly d (filter (counts tb) ev) b)) b (d1 b))
    /\ derivable_pt_lim d1 beta d2 /\ d2 < 0 /\ w_std o = Fin (sqrt (-1 / d2) / ln 10).
Proof.
  intros Had Ho Hg. destruct (admissible_rows _ _ _ _ _ _ _ Had) as (Htp & Hne & Hpos & H2 & He).
  destruct (good_min_solves label ev tb mm given d ly minimize (Fin (ln 10)) Had Hg) as (beta & Emin & Esol).
  destruct (weichert_value label minimize ev tb mm given d ly beta Had Emin) as (_ & E).
  destruct (cell_likelihood_form _ _ _ _ _ _ _ _ Had Ho) as (C & EL).
  set (rows := the_rows label ev tb d) in *. pose proof (rN_pos rows Hne Hpos) as HN. pose proof (var_pos (rt ly) (rm d) rows beta H2 Htp) as HV.
  assert (HNV : 0 < rN rows * var_m (rt ly) (rm d) rows beta) by (apply Rmult_lt_0_compat; assumption).
  eexists. exists beta, (fun b => rN rows * (mean_m (rt ly) (rm d) rows b - rx d rows)), (- (rN rows * var_m (rt ly) (rm d) rows beta)).
  split; [exact E|]. split; [reflexivity|]. split; [|split; [|split; [lra|]]].
  - intros b. apply derivable_pt_lim_ext with (f := fun b => C + loglik (rt ly) (rm d) rows (rN rows) (rx d rows) b); [intros; rewrite EL, ln_exp; reflexivity|].
    pose proof (derivable_pt_lim_plus (fun _ => C) (loglik (rt ly) (rm d) rows (rN rows) (rx d rows)) b 0 _ (derivable_pt_lim_const C b) (dloglik (rt ly) (rm d) rows (rN rows) (rx d rows) b Hne Htp)) as D.
    rewrite Rplus_0_l in D. exact D.
  - pose proof (derivable_pt_lim_scal (fun b => mean_m (rt ly) (rm d) rows b - rx d rows) (rN rows) beta (- var_m (rt ly) (rm d) rows beta - 0)) as D.
    replace (rN rows * (- var_m (rt ly) (rm d) rows beta - 0)) with (- (rN rows * var_m (rt ly) (rm d) rows beta)) in D by ring. apply D.
    apply (derivable_pt_lim_minus (mean_m (rt ly) (rm d) rows) (fun _ => rx d rows)); [apply dmean; assumption|apply (derivable_pt_lim_const (rx d rows))].
  - cbn [w_std]. apply f_equal. do 2 f_equal. field. split; lra.
Qed.

(** C69 for Weichert *)
Theorem C69_weichert_beta_refuted {T} {N : Num T} re mi mags years table mm ly d o :
  estimate_b_weichert re mi mags years table mm ly d "b_value" = Ok o ->
  @estimate_b_weichert T N re mi mags years table mm ly d "beta" = Err UnboundLocalError.
Proof.
  unfold estimate_b_weichert. intros H. destruct (period_checks mags years table d "b_value") as [[]|] eqn:E; [|discriminate].
  assert (E2 : period_checks mags years table d "beta" = Ok tt).
  { revert E. unfold period_checks, rbind, assert_. destruct (_ =? _)%nat; [|discriminate]. destruct (ascending _); [|discriminate].
    destruct mags; [discriminate|]. destruct table; [discriminate|]. destruct (nltb zero d); [reflexivity|discriminate]. }
  rewrite E2. cbn [rbind] in *. destruct (complete_events re table mm d (zip mags years)) as [[|r0 rows]|]; [discriminate| |discriminate].
  cbn [rbind] in *. reflexivity.
Qed.

(** C106: a counted event whose bin is not below mag_max + 0.01 makes the call fail, even if its
    magnitude is not larger than mag_max *)
Theorem C106_mag_max_refuted label minimize ev tb mm given d par e : tb <> [] -> rising_mags tb -> 0 < d ->
  par = "b_value"%string \/ par = "beta"%string ->
  In e ev -> counts tb e = true -> mm + 1 / 100 <= bin_left (lowest tb) d (fst e) + d ->
  weichert label minimize ev tb mm given d par = Err AttributeError.
Proof.
  intros Ht Hr Hd Hp He Hc Hb. unfold weichert, estimate_b_weichert. rewrite checks_ok by (auto; intros ->; destruct He). cbn [rbind].
  rewrite zip_emb. unfold complete_events.
  assert (E0 : match map emb tb with [] => nnan | r :: _ => fst r end = Fin (lowest tb)) by (destruct tb; [congruence|reflexivity]).
  rewrite E0, filter_emb by exact Hr. rewrite x_lit, x_add. replace (10 ^ Z.of_nat 2)%Z with 100%Z by reflexivity.
  rewrite (cut_all_err (xlabel label) label (fun x => eq_refl)); [reflexivity|exact Hd|exact Hr|reflexivity| |].
  - intros x Hx. apply filter_In in Hx. apply Hx.
  - exists e. split; [apply filter_In; auto|exact Hb].
Qed.
(** such events exist for every table: magnitude equal to mag_max, in the middle of a bin *)
Theorem C106_at_mag_max tb d k : 0 < d -> 2 / 100 < d -> (lowest tb + (INR k + 1 / 2) * d) + 1 / 100 <= bin_left (lowest tb) d (lowest tb + (INR k + 1 / 2) * d) + d.
Proof.
  intros Hd Hd'. set (lo := lowest tb). set (m := lo + (INR k + 1 / 2) * d). unfold bin_left.
  assert (E : Int_part ((m - lo) / d) = Z.of_nat k).
  { apply Int_part_unique. replace ((m - lo) / d) with (INR k + 1 / 2) by (unfold m; field; lra). rewrite <- INR_IZR_INZ. lra. }
  rewrite E, <- INR_IZR_INZ. unfold m. lra.
Qed.
(** C105: mag_max has no influence on the result: any larger value gives the same *)
Theorem C105_mag_max_refuted label minimize ev tb mm mm' given d par o : rising_mags tb -> 0 < d -> tb <> [] -> ev <> [] -> mm <= mm' ->
  weichert label minimize ev tb mm given d par = Ok o -> weichert label minimize ev tb mm' given d par = Ok o.
Proof.
  intros Hr Hd Ht He Hle H. 
  assert (Hb : forall e, In e ev -> counts tb e = true -> bin_left (lowest tb) d (fst e) + d < mm + 1 / 100).
  { intros e Hi Hc. destruct (Rlt_dec (bin_left (lowest tb) d (fst e) + d) (mm + 1 / 100)) as [L|L]; [exact L|exfalso].
    assert (Hp : par = "b_value"%string \/ par = "beta"%string).
    { unfold weichert, estimate_b_weichert, period_checks, rbind, assert_ in H. rewrite !map_length, Nat.eqb_refl in H. rewrite ascending_rising in H by exact Hr.
      destruct ev as [|x ev']; [congruence|]. destruct tb as [|r tb']; [congruence|]. cbn [map] in H.
      destruct (nltb zero (Fin d)); [|discriminate H].
      destruct (String.eqb_spec par "b_value"); [left; assumption|]. destruct (String.eqb_spec par "beta"); [right; assumption|]. cbn [orb] in H. discriminate H. }
    rewrite (C106_mag_max_refuted label minimize ev tb mm given d par e Ht Hr Hd Hp Hi Hc) in H; [discriminate|lra]. }
  unfold weichert, estimate_b_weichert in *. rewrite zip_emb in *.
  rewrite (rows_value label ev tb mm d Ht Hr Hd Hb) in H.
  rewrite (rows_value label ev tb mm' d Ht Hr Hd); [exact H|]. intros e Hi Hc. pose proof (Hb e Hi Hc). unfold in_bins. lra.
Qed.
