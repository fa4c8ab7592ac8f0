(** * Real analysis behind the estimators *)
From Coq Require Import Reals Lra List Lia ZArith.
From Verif Require Import Base Num XR RList Spec_BValue.
Import ListNotations.
Open Scope R_scope.

Lemma ln_lt_sub1 t : 0 < t -> t <> 1 -> ln t < t - 1.
Proof.
  intros H H1. assert (N : ln t <> 0) by (intros E; apply H1; rewrite <- (exp_ln t H), E; apply exp_0).
  pose proof (exp_ineq1 (ln t) N) as E. rewrite exp_ln in E by exact H. lra.
Qed.
Lemma ln_le_sub1 t : 0 < t -> ln t <= t - 1.
Proof. intros H. destruct (Req_dec t 1) as [->|N]; [rewrite ln_1; lra|]. left; apply ln_lt_sub1; assumption. Qed.

Lemma max_exp W x : 0 < W -> 0 < x -> unique_positive_maximiser (fun b => W * (ln b - b * x)) (1 / x).
Proof.
  intros HW Hx. assert (0 < 1 / x) by (apply Rdiv_lt_0_compat; lra). split; [assumption|].
  intros y Hy N. apply Rmult_lt_compat_l; [exact HW|].
  assert (Hyx : 0 < y * x) by nra.
  assert (y * x <> 1). { intros E. apply N. apply Rmult_eq_reg_r with x; [|lra]. rewrite E. field. lra. }
  pose proof (ln_lt_sub1 (y * x) Hyx H0) as L. rewrite ln_mult in L by assumption.
  replace (1 / x * x) with 1 by (field; lra). replace (1 / x) with (/ x) by (field; lra). rewrite ln_Rinv by lra. lra.
Qed.

Lemma max_geo W d x : 0 < W -> 0 < d -> 0 < x ->
  unique_positive_maximiser (fun b => W * (ln (1 - exp (- b * d)) - b * x)) (ln (1 + d / x) / d).
Proof.
  intros HW Hd Hx. assert (Hq : 0 < d / x) by (apply Rdiv_lt_0_compat; lra).
  assert (Hl : 0 < ln (1 + d / x)) by (rewrite <- ln_1; apply ln_increasing; lra).
  split; [apply Rdiv_lt_0_compat; lra|].
  intros y Hy N. apply Rmult_lt_compat_l; [exact HW|].
  set (bh := ln (1 + d / x) / d) in *.
  assert (Eh : exp (- bh * d) = x / (x + d)).
  { unfold bh. replace (- (ln (1 + d / x) / d) * d) with (- ln (1 + d / x)) by (field; lra).
    rewrite exp_Ropp, exp_ln by lra. field. lra. }
  rewrite Eh. set (q := exp (- y * d)).
  assert (Hq0 : 0 < q) by apply exp_pos.
  assert (Hq1 : q < 1). { unfold q. rewrite <- exp_0. apply exp_increasing. nra. }
  assert (Ey : y * x = - (x / d) * ln q) by (unfold q; rewrite ln_exp; field; lra).
  assert (Eb : bh * x = - (x / d) * ln (x / (x + d))) by (rewrite <- Eh, ln_exp; field; lra).
  rewrite Ey, Eb.
  assert (P1 : 0 < x / (x + d)) by (apply Rdiv_lt_0_compat; lra).
  replace (1 - x / (x + d)) with (d / (x + d)) by (field; lra).
  assert (P2 : 0 < d / (x + d)) by (apply Rdiv_lt_0_compat; lra).
  assert (Nq : q <> x / (x + d)).
  { intros E. apply N. rewrite <- Eh in E. unfold q in E. apply exp_inv in E. nra. }
  set (t1 := (1 - q) / (d / (x + d))). set (t2 := q / (x / (x + d))).
  assert (Q1 : 0 < t1) by (apply Rdiv_lt_0_compat; lra).
  assert (Q2 : 0 < t2) by (apply Rdiv_lt_0_compat; lra).
  assert (N2 : t2 <> 1).
  { unfold t2. intros E. apply Nq. apply Rmult_eq_reg_r with (/ (x / (x + d))).
    - transitivity 1; [exact E|field; lra].
    - apply Rinv_neq_0_compat; lra. }
  pose proof (ln_le_sub1 t1 Q1) as L1. pose proof (ln_lt_sub1 t2 Q2 N2) as L2.
  unfold t1 in L1 at 1. unfold t2 in L2 at 1. unfold Rdiv in L1 at 1, L2 at 1.
  rewrite ln_mult in L1 by (try apply Rinv_0_lt_compat; lra). rewrite ln_mult in L2 by (try apply Rinv_0_lt_compat; lra).
  rewrite ln_Rinv in L1 by lra. rewrite ln_Rinv in L2 by lra.
  assert (Z : (t1 - 1) + x / d * (t2 - 1) = 0) by (unfold t1, t2; field; lra).
  assert (0 < x / d) by (apply Rdiv_lt_0_compat; lra).
  assert (x / d * (ln q + - ln (x / (x + d))) < x / d * (t2 - 1)) by (apply Rmult_lt_compat_l; assumption).
  lra.
Qed.

Lemma Rprod_exp {A} (f : A -> R) l : (forall x, In x l -> 0 < f x) -> Rprod (map f l) = exp (Rsum (map (fun x => ln (f x)) l)).
Proof.
  induction l as [|a l IH]; intros H; cbn; [symmetry; apply exp_0|].
  change (fold_right Rmult 1 (map f l)) with (Rprod (map f l)). rewrite IH by (intros; apply H; right; assumption).
  rewrite exp_plus, exp_ln by (apply H; left; reflexivity). reflexivity.
Qed.
Lemma maximiser_exp_ext (f g : R -> R) x : (forall y, 0 < y -> f y = exp (g y)) ->
  unique_positive_maximiser g x -> unique_positive_maximiser f x.
Proof.
  intros E [H M]. split; [exact H|]. intros y Hy N. rewrite !E by assumption. apply exp_increasing. auto.
Qed.
Lemma maximiser_ext (f g : R -> R) x : (forall y, 0 < y -> f y = g y) ->
  unique_positive_maximiser g x -> unique_positive_maximiser f x.
Proof. intros E [H M]. split; [exact H|]. intros y Hy N. rewrite !E by assumption. auto. Qed.

(** monotonicity from the derivative *)
Lemma deriv_nonneg_le (f f' : R -> R) a b : a <= b ->
  (forall c, a <= c <= b -> derivable_pt_lim f c (f' c)) -> (forall c, a <= c <= b -> 0 <= f' c) -> f a <= f b.
Proof.
  intros H D P. destruct H as [H| ->]; [|lra].
  destruct (MVT_cor2 f f' a b H D) as (c & E & Hc). assert (0 <= f' c) by (apply P; lra). nra.
Qed.
Lemma deriv_pos_lt (f f' : R -> R) a b : a < b ->
  (forall c, a <= c <= b -> derivable_pt_lim f c (f' c)) -> (forall c, a < c < b -> 0 < f' c) -> f a < f b.
Proof.
  intros H D P. destruct (MVT_cor2 f f' a b H D) as (c & E & Hc). assert (0 < f' c) by (apply P; lra). nra.
Qed.

Lemma dlim_ln1p c : 0 < 1 + c -> derivable_pt_lim (fun x => ln (1 + x)) c (/ (1 + c)).
Proof.
  intros H. replace (/ (1 + c)) with (/ (1 + c) * (0 + 1)) by ring.
  apply (derivable_pt_lim_comp (fun x => 1 + x) ln c).
  - apply (derivable_pt_lim_plus (fun _ => 1) (fun x => x) c 0 1); [apply derivable_pt_lim_const|apply derivable_pt_lim_id].
  - apply derivable_pt_lim_ln. exact H.
Qed.

(** ln(1+x) > 2x/(2+x) *)
Lemma ln1p_lower x : 0 < x -> 2 * x / (2 + x) < ln (1 + x).
Proof.
  intros Hx. set (f := fun y => ln (1 + y) - 2 * y / (2 + y)).
  set (f' := fun y => / (1 + y) - (2 * (2 + y) - 1 * (2 * y)) / Rsqr (2 + y)).
  assert (L : f 0 < f x).
  { apply (deriv_pos_lt f f' 0 x Hx).
    - intros c Hc. unfold f, f'. apply (derivable_pt_lim_minus (fun y => ln (1 + y)) (fun y => 2 * y / (2 + y))).
      + apply dlim_ln1p. lra.
      + apply (derivable_pt_lim_div (fun y => 2 * y) (fun y => 2 + y) c 2 1).
        * replace 2 with (2 * 1) at 1 by ring. apply (derivable_pt_lim_scal (fun y => y)). apply derivable_pt_lim_id.
        * replace 1 with (0 + 1) at 1 by ring. apply (derivable_pt_lim_plus (fun _ => 2) (fun y => y)); [apply derivable_pt_lim_const|apply derivable_pt_lim_id].
        * lra.
    - intros c Hc. unfold f', Rsqr.
      replace (/ (1 + c) - (2 * (2 + c) - 1 * (2 * c)) / ((2 + c) * (2 + c))) with (c * c / ((1 + c) * ((2 + c) * (2 + c)))) by (field; lra).
      apply Rdiv_lt_0_compat; nra. }
  unfold f in L. rewrite Rplus_0_r, ln_1 in L. replace (2 * 0 / (2 + 0)) with 0 in L by (field; lra). lra.
Qed.

(** x/ln(1+x) >= 1 + x/2 - x^2/12 *)
Lemma ln1p_upper x : 0 < x -> (1 + x / 2 - x * x / 12) * ln (1 + x) <= x.
Proof.
  intros Hx. assert (Hl : 0 < ln (1 + x)) by (rewrite <- ln_1; apply ln_increasing; lra).
  destruct (Rle_dec (1 + x / 2 - x * x / 12) 0) as [N|N]; [nra|].
  apply Rnot_le_lt in N.
  assert (x < 12) by (destruct (Rlt_dec x 12); [assumption|exfalso; nra]).
  assert (Pos : forall c, 0 <= c <= x -> 0 < 1 + c / 2 - c * c / 12).
  { intros c Hc. destruct (Rle_dec c 6); [nra|]. nra. }
  set (g := fun y => 1 + y / 2 - y * y / 12).
  set (f := fun y => y / g y - ln (1 + y)).
  set (f' := fun y => (1 * g y - (1 / 2 - (2 * y) / 12) * y) / Rsqr (g y) - / (1 + y)).
  assert (L : f 0 <= f x).
  { apply (deriv_nonneg_le f f' 0 x); [lra| |].
    - intros c Hc. unfold f, f'. apply (derivable_pt_lim_minus (fun y => y / g y) (fun y => ln (1 + y))).
      + apply (derivable_pt_lim_div (fun y => y) g c 1 (1 / 2 - (2 * c) / 12)).
        * apply derivable_pt_lim_id.
        * unfold g. apply (derivable_pt_lim_minus (fun y => 1 + y / 2) (fun y => y * y / 12)).
          -- replace (1 / 2) with (0 + 1 / 2) by lra.
             apply (derivable_pt_lim_plus (fun _ => 1) (fun y => y / 2)); [apply derivable_pt_lim_const|].
             replace (1 / 2) with (/ 2 * 1) by lra.
             intros e He. destruct (derivable_pt_lim_scal (fun y => y) (/ 2) c 1 (derivable_pt_lim_id c) e He) as (dl & Hdl).
             exists dl. intros h H1 H2. specialize (Hdl h H1 H2). unfold mult_real_fct in Hdl.
             replace ((c + h) / 2 - c / 2) with (/ 2 * (c + h) - / 2 * c) by lra. exact Hdl.
          -- replace (2 * c / 12) with (/ 12 * (2 * c)) by lra.
             assert (DS : derivable_pt_lim (fun y => y * y) c (2 * c)).
             { replace (2 * c) with (1 * c + c * 1) by ring. apply (derivable_pt_lim_mult (fun y => y) (fun y => y)); apply derivable_pt_lim_id. }
             intros e He. destruct (derivable_pt_lim_scal (fun y => y * y) (/ 12) c (2 * c) DS e He) as (dl & Hdl).
             exists dl. intros h H1 H2. specialize (Hdl h H1 H2). unfold mult_real_fct in Hdl.
             replace ((c + h) * (c + h) / 12 - c * c / 12) with (/ 12 * ((c + h) * (c + h)) - / 12 * (c * c)) by lra. exact Hdl.
        * unfold g. specialize (Pos c Hc). lra.
      + apply dlim_ln1p. lra.
    - intros c Hc. unfold f'. specialize (Pos c Hc). fold (g c) in Pos.
      assert (E : (1 * g c - (1 / 2 - 2 * c / 12) * c) / Rsqr (g c) - / (1 + c)
                  = (c * c * c / 6 - c * c * c * c / 144) / (Rsqr (g c) * (1 + c))).
      { unfold Rsqr. unfold g. unfold g in Pos. field. split; lra. }
      rewrite E. apply Rmult_le_pos.
      + replace (c * c * c / 6 - c * c * c * c / 144) with (c * c * c * (1 / 6 - c / 144)) by field.
        apply Rmult_le_pos; [|lra]. apply Rmult_le_pos; [|lra]. nra.
      + left. apply Rinv_0_lt_compat. apply Rmult_lt_0_compat; [apply Rsqr_pos_lt; lra|lra]. }
  unfold f in L. rewrite Rplus_0_r, ln_1 in L. replace (0 / g 0) with 0 in L by (unfold g; field).
  assert (L2 : ln (1 + x) <= x / g x) by lra.
  fold (g x). apply Rmult_le_compat_l with (r := g x) in L2; [|unfold g; lra].
  replace (g x * (x / g x)) with x in L2 by (field; unfold g; lra). exact L2.
Qed.
