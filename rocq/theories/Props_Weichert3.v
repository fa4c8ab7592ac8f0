(** * C105, C110, C112: rate, a-value and empty bins of Weichert's estimator; examples *)
From Coq Require Import Reals Lra List Lia ZArith Sorted Permutation Bool String IndefiniteDescription Classical.
From Verif Require Import Base Num XR RList SortLib BValue_model Spec_BValue Likelihood Periods_model Spec_Periods Weichert_real Periods_proofs Weichert_proofs Props_KijkoSmit Props_Weichert Props_Weichert2.
Import ListNotations.
Open Scope R_scope.

(** ** a-value *)
Lemma left_lowest label ev tb mm given d ly : admissible label ev tb mm given d ly ->
  exists e, In e ev /\ counts tb e = true /\ fst (cell_of label tb d e) = left_of (the_rows label ev tb d)
    /\ forall e', In e' ev -> counts tb e' = true -> left_of (the_rows label ev tb d) <= fst (cell_of label tb d e').
Proof.
  intros Had. destruct (admissible_rows _ _ _ _ _ _ _ Had) as (_ & Hne & _).
  pose proof (rows_fst label ev tb d) as Hf. destruct (tally_sorted _ (isort_lex (the_cells label ev tb d))) as [Hs _].
  change (tally (isort lexb (the_cells label ev tb d))) with (the_rows label ev tb d) in Hs.
  destruct (the_rows label ev tb d) as [|r0 rows]; [congruence|]. cbn [left_of].
  destruct (proj1 (Hf (fst r0)) (or_introl eq_refl)) as (e & H1 & H2 & H3). exists e. rewrite H3. split; [exact H1|]. split; [exact H2|]. split; [reflexivity|].
  intros e' H1' H2'. assert (Hi : In (cell_of label tb d e') (map fst (r0 :: rows))) by (apply Hf; exists e'; auto).
  cbn [map] in Hi. destruct Hi as [E|Hi]; [rewrite <- E; lra|]. apply in_map_iff in Hi. destruct Hi as (q & Eq & Hq).
  inversion_clear Hs as [|? ? _ F]. rewrite Forall_forall in F. apply F in Hq. rewrite Eq in Hq. unfold lex in Hq. lra.
Qed.
(** C110: 10^a is the rate above the lowest occupied bin, extrapolated to magnitude 0 with the b-value *)
Theorem C110_weichert_a label minimize ev tb mm given d ly : admissible label ev tb mm given d ly -> good_minimizer minimize ->
  exists o b rate a left, weichert label minimize ev tb mm given d "b_value" = Ok o /\ w_b o = Fin b /\ w_rate o = Fin rate /\ w_a o = Fin a
    /\ 0 < rate /\ Rpower 10 a = rate * Rpower 10 (b * left)
    /\ (exists e, In e ev /\ counts tb e = true /\ fst (cell_of label tb d e) = left)
    /\ (forall e, In e ev -> counts tb e = true -> left <= fst (cell_of label tb d e)).
Proof.
  intros Had Hg. destruct (good_min_solves label ev tb mm given d ly minimize (Fin (ln 10)) Had Hg) as (beta & Emin & Esol).
  destruct (weichert_value label minimize ev tb mm given d ly beta Had Emin) as (Hr & E).
  destruct (left_lowest _ _ _ _ _ _ _ Had) as (e & H1 & H2 & H3 & H4).
  set (rows := the_rows label ev tb d) in *. set (rate := rate_of ly d rows beta) in *. pose proof log10pos as H10.
  eexists. exists (beta / ln 10), rate, (ln rate / ln 10 + beta / ln 10 * left_of rows), (left_of rows).
  split; [exact E|]. split; [reflexivity|]. split; [reflexivity|]. split; [reflexivity|]. split; [exact Hr|]. split; [|split; [exists e; auto|exact H4]].
  rewrite Rpower_plus. f_equal. unfold Rpower. replace (ln rate / ln 10 * ln 10) with (ln rate) by (field; lra). apply exp_ln. exact Hr.
Qed.

(** ** rate *)
Lemma poisson_prod {A} (q : A -> R) (c : A -> nat) l : (forall a, In a l -> 0 < q a) ->
  exists C, 0 < C /\ forall lambda, 0 < lambda -> Rprod (map (fun a => poisson (lambda * q a) (c a)) l)
    = C * exp (Rsum (map (fun a => INR (c a)) l) * ln lambda - lambda * Rsum (map q l)).
Proof.
  intros Hp. induction l as [|a l IH].
  - exists 1. split; [lra|]. intros lambda _. unfold Rprod, Rsum. cbn. replace (0 * ln lambda - lambda * 0) with 0 by ring. rewrite exp_0. ring.
  - destruct IH as (C & HC & IH); [intros; apply Hp; right; assumption|]. pose proof (Hp a (or_introl eq_refl)) as Hq.
    exists (C * (q a ^ c a / INR (fact (c a)))). split.
    + apply Rmult_lt_0_compat; [exact HC|]. apply Rdiv_lt_0_compat; [apply pow_lt; exact Hq|]. apply lt_0_INR. apply lt_O_fact.
    + intros lambda Hl. cbn [map]. rewrite !Rsum_cons. unfold Rprod in *. cbn [fold_right]. rewrite (IH lambda Hl). unfold poisson. rewrite Rpow_mult_distr.
      assert (Epow : lambda ^ c a = exp (INR (c a) * ln lambda)) by (rewrite <- (Rpower_pow (c a) lambda Hl); reflexivity). rewrite Epow.
      match goal with |- _ = _ * exp ((?a + ?b) * ?c - ?d * (?e + ?f)) => replace ((a + b) * c - d * (e + f)) with (- (d * e) + (a * c + (b * c - d * f))) by ring end.
      rewrite !exp_plus. field. apply INR_fact_neq_0.
Qed.
(** expected number of events in a cell, if the cells share a total rate of [lambda] per year *)
Definition cell_expected (cells : list (R * R)) (ly d beta lambda : R) (k : R * R) : R :=
  lambda * (cell_weight ly d beta k / Rsum (map (fun k => exp (- beta * (fst k + d / 2))) cells)).
Definition in_cell (label : R -> R) (ev tb : list (R * R)) (d : R) (k : R * R) : nat :=
  List.length (filter (fun e => counts tb e && row_eqb (cell_of label tb d e) k) ev).
Definition cell_rate_likelihood (label : R -> R) (ev tb cells : list (R * R)) (ly d beta lambda : R) : R :=
  Rprod (map (fun k => poisson (cell_expected cells ly d beta lambda k) (in_cell label ev tb d k)) cells).
(** C112: the returned rate is the maximum likelihood estimate of the total rate of the occupied
    cells (given the b-value), and its standard error is the rate over the square root of the number of events *)
Theorem C112_weichert_rate label minimize ev tb mm given d ly cells : admissible label ev tb mm given d ly -> occupied label ev tb d cells -> good_minimizer minimize ->
  exists o beta rate, weichert label minimize ev tb mm given d "b_value" = Ok o /\ w_b o = Fin (beta / ln 10) /\ w_rate o = Fin rate
    /\ unique_positive_maximiser (cell_rate_likelihood label ev tb cells ly d beta) rate
    /\ w_std_rate o = Fin (rate / sqrt (INR (List.length (filter (counts tb) ev)))).
Proof.
  intros Had Ho Hg. destruct (good_min_solves label ev tb mm given d ly minimize (Fin (ln 10)) Had Hg) as (beta & Emin & Esol).
  destruct (weichert_value label minimize ev tb mm given d ly beta Had Emin) as (Hr & E).
  destruct (admissible_rows _ _ _ _ _ _ _ Had) as (Htp & Hne & Hpos & H2 & He).
  pose proof Had as (Ht & Hri & Hd & Hly & Hb & _).
  destruct (C104_rows label ev tb mm d Ht Hri Hd) as (rows' & Erows & _ & _ & Hcnt & Htot); [intros e H1 H3; apply (Hb e H1 H3)|].
  rewrite (rows_value label ev tb mm d Ht Hri Hd) in Erows by (intros e H1 H3; apply (Hb e H1 H3)).
  assert (Er : rows' = the_rows label ev tb d).
  { injection Erows as Erows. symmetry in Erows. revert Erows. generalize (the_rows label ev tb d). clear. induction rows' as [|[[a b] n] l IH]; intros [|[[a' b'] n'] l'] Em; cbn in Em; try discriminate; [reflexivity|].
    injection Em as E1 E2 E3 E4. subst. f_equal. apply IH. exact E4. }
  subst rows'. set (rows := the_rows label ev tb d) in *. pose proof (rN_pos rows Hne Hpos) as HN.
  pose proof (Zf_pos (rt ly) (rm d) rows beta Hne Htp) as HZ.
  assert (EN : rN rows = INR (List.length (filter (counts tb) ev))) by (unfold rN; rewrite Htot; reflexivity).
  pose proof (occupied_perm _ _ _ _ _ Ho) as HP. fold rows in HP.
  set (S := Rsum (map (fun k => exp (- beta * (fst k + d / 2))) cells)).
  assert (ES : S = Rsum (map (fun r => exp (- beta * rm d r)) rows)).
  { unfold S. rewrite (Rsum_perm _ _ (Permutation_map _ HP)), map_map. reflexivity. }
  assert (HS : 0 < S).
  { rewrite ES. apply Rsum_pos_nonempty; [destruct rows; [congruence|discriminate]|]. intros x Hx. apply in_map_iff in Hx. destruct Hx as (r & <- & _). apply exp_pos. }
  assert (Hw : forall k, In k cells -> 0 < cell_weight ly d beta k / S).
  { intros k Hk. apply Rdiv_lt_0_compat; [|exact HS]. apply (Permutation_in _ HP) in Hk. apply in_map_iff in Hk. destruct Hk as (r & <- & Hrr).
    apply Rmult_lt_0_compat; [apply (Htp r Hrr)|apply exp_pos]. }
  eexists. exists beta, (rate_of ly d rows beta). split; [exact E|]. split; [reflexivity|]. split; [reflexivity|]. split; [|rewrite <- EN; reflexivity].
  destruct (poisson_prod (fun k => cell_weight ly d beta k / S) (in_cell label ev tb d) cells Hw) as (C & HC & Ef).
  assert (Ec : Rsum (map (fun k => INR (in_cell label ev tb d k)) cells) = rN rows).
  { rewrite (Rsum_perm _ _ (Permutation_map _ HP)), map_map. unfold rN. rewrite INR_list_sum, map_map. apply Rsum_map_ext. intros [k n] Hk. cbn [fst snd].
    f_equal. symmetry. apply Hcnt. exact Hk. }
  assert (Eq : Rsum (map (fun k => cell_weight ly d beta k / S) cells) = Zf (rt ly) (rm d) rows beta / S).
  { transitivity (Rsum (map (fun k => / S * cell_weight ly d beta k) cells)); [apply Rsum_map_ext; intros; unfold Rdiv; ring|].
    rewrite Rsum_map_scal, (Rsum_perm _ _ (Permutation_map _ HP)), map_map. change (Zf (rt ly) (rm d) rows beta) with (Rsum (map (fun r => cell_weight ly d beta (fst r)) rows)). unfold Rdiv. ring. }
  rewrite Ec, Eq in Ef. set (Z := Zf (rt ly) (rm d) rows beta) in *.
  assert (Erate : rate_of ly d rows beta = 1 / (Z / S / rN rows)) by (unfold rate_of; fold Z; rewrite <- ES; field; lra).
  destruct (max_exp (rN rows) (Z / S / rN rows) HN) as [P M]; [apply Rdiv_lt_0_compat; [apply Rdiv_lt_0_compat|]; assumption|]. rewrite <- Erate in P, M.
  split; [exact P|]. intros y Hy Ny. unfold cell_rate_likelihood, cell_expected. fold S. rewrite !Ef by assumption.
  apply Rmult_lt_compat_l; [exact HC|]. apply exp_increasing. specialize (M y Hy Ny).
  replace (rN rows * ln y - y * (Z / S)) with (rN rows * (ln y - y * (Z / S / rN rows))) by (field; lra).
  replace (rN rows * ln (rate_of ly d rows beta) - rate_of ly d rows beta * (Z / S)) with (rN rows * (ln (rate_of ly d rows beta) - rate_of ly d rows beta * (Z / S / rN rows))) by (field; lra). exact M.
Qed.

(** ** C105: bins without events are left out of the likelihood *)
Definition gap_tb : list (R * R) := [(0, 1900)].
Definition gap_ev : list (R * R) := [(1/2, 2000); (1/2, 1950); (5/2, 1990)].
Definition idl (x : R) : R := x.
Lemma gap_start m : 0 < m -> start_of gap_tb m = Some 1900.
Proof. intros H. unfold start_of, gap_tb. cbn [rev app find fst]. replace (rlt 0 m) with true by (symmetry; apply rlt_true; exact H). reflexivity. Qed.
Lemma gap_counts e : In e gap_ev -> counts gap_tb e = true.
Proof.
  intros H. unfold counts. assert (0 < fst e /\ 1900 <= snd e) as [A B].
  { destruct H as [<-|[<-|[<-|[]]]]; cbn; lra. }
  rewrite gap_start by exact A. replace (rlt 0 1900) with true by (symmetry; apply rlt_true; lra). apply rle_true. exact B.
Qed.
Lemma gap_bin z m : IZR z <= m < IZR z + 1 -> bin_left 0 1 m = IZR z.
Proof. intros H. unfold bin_left. rewrite (Int_part_unique _ z); [ring|]. replace ((m - 0) / 1) with m by field. exact H. Qed.
Lemma gap_cell m y : 0 < m -> cell_of idl gap_tb 1 (m, y) = (bin_left 0 1 m, 1900).
Proof. intros H. unfold cell_of. cbn [fst lowest gap_tb]. rewrite gap_start by exact H. reflexivity. Qed.
Lemma gap_cells : map (cell_of idl gap_tb 1) gap_ev = [(0, 1900); (0, 1900); (2, 1900)].
Proof.
  unfold gap_ev. cbn [map]. rewrite !gap_cell by lra. rewrite (gap_bin 0 (1/2)) by lra. rewrite (gap_bin 2 (5/2)) by lra. reflexivity.
Qed.
Lemma gap_admissible : admissible idl gap_ev gap_tb 5 None 1 2000.
Proof.
  assert (Hc : forall e, In e gap_ev -> In (cell_of idl gap_tb 1 e) [(0, 1900); (0, 1900); (2, 1900)]) by (intros e H; rewrite <- gap_cells; apply in_map; exact H).
  split; [discriminate|]. split; [repeat constructor|]. split; [lra|]. split.
  { right. split; [reflexivity|]. split; [left; reflexivity|]. cbn. intros y [<-|[<-|[<-|[]]]]; lra. }
  split.
  - intros e H _. specialize (Hc e H). assert (E : fst (cell_of idl gap_tb 1 e) = bin_left (lowest gap_tb) 1 (fst e)) by reflexivity.
    unfold in_bins. rewrite <- E. destruct Hc as [<-|[<-|[<-|[]]]]; cbn; lra.
  - exists (1/2, 2000), (5/2, 1990). split; [left; reflexivity|]. split; [right; right; left; reflexivity|].
    split; [apply gap_counts; left; reflexivity|]. split; [apply gap_counts; right; right; left; reflexivity|].
    rewrite !gap_cell by lra. rewrite (gap_bin 0 (1/2)) by lra. rewrite (gap_bin 2 (5/2)) by lra. cbn. lra.
Qed.
Lemma gap_occupied : occupied idl gap_ev gap_tb 1 [(0, 1900); (2, 1900)].
Proof.
  split.
  - constructor; [|constructor; [intros []|constructor]]. intros [E|[]]. injection E. lra.
  - intros k. split.
    + intros [<-|[<-|[]]].
      * exists (1/2, 2000). split; [left; reflexivity|]. split; [apply gap_counts; left; reflexivity|]. rewrite gap_cell, (gap_bin 0) by lra. reflexivity.
      * exists (5/2, 1990). split; [right; right; left; reflexivity|]. split; [apply gap_counts; right; right; left; reflexivity|]. rewrite gap_cell, (gap_bin 2) by lra. reflexivity.
    + intros (e & H & _ & <-). assert (Hi : In (cell_of idl gap_tb 1 e) (map (cell_of idl gap_tb 1) gap_ev)) by (apply in_map; exact H). rewrite gap_cells in Hi. cbn in *. tauto.
Qed.
Lemma gap_filter : filter (counts gap_tb) gap_ev = gap_ev.
Proof. unfold gap_ev. cbn [filter]. rewrite !gap_counts by (cbn; tauto). reflexivity. Qed.
Lemma gap_lik cells b : cell_likelihood cells (cell_of idl gap_tb 1) 2000 1 gap_ev b
  = let W := Rsum (map (cell_weight 2000 1 b) cells) in
    (cell_weight 2000 1 b (0, 1900) / W) * ((cell_weight 2000 1 b (0, 1900) / W) * (cell_weight 2000 1 b (2, 1900) / W)).
Proof.
  unfold cell_likelihood. rewrite <- (map_map (cell_of idl gap_tb 1) (fun k => cell_weight 2000 1 b k / Rsum (map (cell_weight 2000 1 b) cells))), gap_cells.
  unfold Rprod. cbn. ring.
Qed.
Lemma weight_u b : cell_weight 2000 1 b (0, 1900) = 100 * exp (- b / 2) /\ cell_weight 2000 1 b (1, 1900) = 100 * exp (- b / 2) * exp (- b)
  /\ cell_weight 2000 1 b (2, 1900) = 100 * exp (- b / 2) * (exp (- b) * exp (- b)).
Proof.
  unfold cell_weight. cbn [fst snd]. replace (2000 - 1900) with 100 by ring. split; [f_equal; f_equal; field|]. split.
  - rewrite Rmult_assoc, <- exp_plus. do 2 f_equal. field.
  - rewrite Rmult_assoc, <- !exp_plus. do 2 f_equal. field.
Qed.
Theorem C105_empty_bins_refuted :
  exists beta, (forall minimize, good_minimizer minimize -> exists o, weichert idl minimize gap_ev gap_tb 5 None 1 "b_value" = Ok o /\ w_b o = Fin (beta / ln 10))
    /\ ~ unique_maximiser (cell_likelihood [(0, 1900); (1, 1900); (2, 1900)] (cell_of idl gap_tb 1) 2000 1 (filter (counts gap_tb) gap_ev)) beta.
Proof.
  destruct (C101_weichert_is_mle idl gap_ev gap_tb 5 None 1 2000 _ gap_admissible gap_occupied) as (beta & Hmax & Hw).
  exists beta. split; [exact Hw|]. rewrite gap_filter in *. intros Hfull.
  assert (L2 : forall b, let x := exp (- b) in cell_likelihood [(0, 1900); (2, 1900)] (cell_of idl gap_tb 1) 2000 1 gap_ev b = (x * x) / ((1 + x * x) * (1 + x * x) * (1 + x * x))).
  { intros b x. rewrite gap_lik. destruct (weight_u b) as (E0 & E1 & E2). cbn [map]. rewrite !Rsum_cons, E0, E2. unfold Rsum. cbn [fold_right].
    fold x. pose proof (exp_pos (- b / 2)). pose proof (exp_pos (- b)) as Hx. fold x in Hx. assert (0 < x * x) by (apply Rmult_lt_0_compat; exact Hx). cbv zeta. field. split; [lra|]. nra. }
  assert (L3 : forall b, let x := exp (- b) in cell_likelihood [(0, 1900); (1, 1900); (2, 1900)] (cell_of idl gap_tb 1) 2000 1 gap_ev b = (x * x) / ((1 + x + x * x) * (1 + x + x * x) * (1 + x + x * x))).
  { intros b x. rewrite gap_lik. destruct (weight_u b) as (E0 & E1 & E2). cbn [map]. rewrite !Rsum_cons, E0, E1, E2. unfold Rsum. cbn [fold_right].
    fold x. pose proof (exp_pos (- b / 2)). pose proof (exp_pos (- b)) as Hx. fold x in Hx. assert (0 < x * x) by (apply Rmult_lt_0_compat; exact Hx). cbv zeta. field. split; [lra|]. nra. }
  set (x := exp (- beta)). assert (Hx : 0 < x) by apply exp_pos.
  (* the code's solution: x^2 = 1/2 *)
  assert (Hu : x * x = 1 / 2).
  { set (b0 := ln 2 / 2).
    assert (E0 : exp (- b0) * exp (- b0) = 1 / 2).
    { rewrite <- exp_plus. unfold b0. replace (- (ln 2 / 2) + - (ln 2 / 2)) with (- ln 2) by field. rewrite exp_Ropp, exp_ln by lra. field. }
    destruct (Req_dec b0 beta) as [E|N]; [unfold x; rewrite <- E; exact E0|]. pose proof (Hmax b0 N) as L. rewrite !L2 in L. cbv zeta in L. fold x in L. rewrite E0 in L.
    set (u := x * x) in *. assert (Hu0 : 0 < u) by (apply Rmult_lt_0_compat; exact Hx).
    assert (P : 0 < (1 + u) * (1 + u) * (1 + u)) by (repeat apply Rmult_lt_0_compat; lra).
    assert (L' : 4 / 27 * ((1 + u) * (1 + u) * (1 + u)) < u).
    { replace u with (u / ((1 + u) * (1 + u) * (1 + u)) * ((1 + u) * (1 + u) * (1 + u))) at 4 by (field; lra).
      apply Rmult_lt_compat_r; [exact P|]. replace (4 / 27) with (1 / 2 / ((1 + 1 / 2) * (1 + 1 / 2) * (1 + 1 / 2))) by field. exact L. }
    assert (K : 4 * ((1 + u) * (1 + u) * (1 + u)) - 27 * u = (u - 1 / 2) * (u - 1 / 2) * (4 * u + 16)) by field.
    assert (0 <= (u - 1 / 2) * (u - 1 / 2) * (4 * u + 16)) by (apply Rmult_le_pos; [apply Rle_0_sqr|lra]). lra. }
  assert (Hx7 : 7 / 10 < x).
  { destruct (Rlt_dec (7 / 10) x) as [L|L]; [exact L|exfalso]. assert (x * x <= 7 / 10 * (7 / 10)) by (apply Rmult_le_compat; lra). lra. }
  set (b1 := - ln (6 / 10)).
  assert (E1 : exp (- b1) = 6 / 10) by (unfold b1; rewrite Ropp_involutive, exp_ln by lra; reflexivity).
  assert (N : b1 <> beta) by (intros E; unfold x in Hx7; rewrite <- E, E1 in Hx7; lra).
  specialize (Hfull b1 N). rewrite !L3 in Hfull. cbv zeta in Hfull. fold x in Hfull. rewrite E1, Hu in Hfull.
  set (s := 1 + x + 1 / 2) in *. assert (Hs : 22 / 10 < s) by (unfold s; lra).
  assert (Hs2 : 22 / 10 * (22 / 10) < s * s) by (apply Rmult_le_0_lt_compat; lra).
  assert (Hs3 : 22 / 10 * (22 / 10) * (22 / 10) < s * s * s) by (apply Rmult_le_0_lt_compat; lra).
  assert (1 / 2 / (s * s * s) < 1 / 2 / (22 / 10 * (22 / 10) * (22 / 10))).
  { unfold Rdiv. apply Rmult_lt_compat_l; [lra|]. apply Rinv_lt_contravar; [|exact Hs3]. apply Rmult_lt_0_compat; lra. }
  lra.
Qed.

(** ** the hypotheses are met *)
Example C101_admissible : admissible idl gap_ev gap_tb 5 None 1 2000 /\ occupied idl gap_ev gap_tb 1 [(0, 1900); (2, 1900)].
Proof. split; [apply gap_admissible|apply gap_occupied]. Qed.
(** a minimiser as assumed exists (by the axiom of choice) *)
Example good_minimizer_exists : exists minimize, good_minimizer minimize.
Proof.
  assert (H : forall f : xr -> xr, exists r : xr, (exists b, is_min f b) -> exists b, r = Fin b /\ is_min f b).
  { intros f. destruct (classic (exists b, is_min f b)) as [(b & Hb)|N]; [exists (Fin b); intros _; exists b; auto|exists NaN; intros H; contradiction]. }
  exists (fun f _ => proj1_sig (constructive_indefinite_description _ (H f))). intros f x0 Hb.
  apply (proj2_sig (constructive_indefinite_description _ (H f))). exact Hb.
Qed.
Example C106_ex : exists tb ev e, tb <> [] /\ rising_mags tb /\ In e ev /\ counts tb e = true /\ fst e <= 5/2 /\ 5/2 + 1 / 100 <= bin_left (lowest tb) 1 (fst e) + 1.
Proof.
  exists gap_tb, gap_ev, (5/2, 1990). split; [discriminate|]. split; [repeat constructor|]. split; [right; right; left; reflexivity|].
  split; [apply gap_counts; right; right; left; reflexivity|]. cbn [fst lowest gap_tb]. rewrite (gap_bin 2) by lra. lra.
Qed.
Print Assumptions C101_weichert_is_mle.
Print Assumptions C102_one_minimum.
Print Assumptions C103_weichert_std.
Print Assumptions C104_rows.
Print Assumptions C69_weichert_beta_refuted.
Print Assumptions C105_mag_max_refuted.
Print Assumptions C105_empty_bins_refuted.
Print Assumptions C106_mag_max_refuted.
Print Assumptions C106_at_mag_max.
Print Assumptions C110_weichert_a.
Print Assumptions C112_weichert_rate.
