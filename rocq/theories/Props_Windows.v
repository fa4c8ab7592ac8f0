(** * C49, C92-C94: the space-time windows *)
From Coq Require Import ZArith List Bool Lia Reals Lra.
From Verif Require Import Base Num XR Decluster_model.
Import ListNotations.
Open Scope R_scope.

Lemma pow10_lt x y : x < y -> Rpower 10 x < Rpower 10 y.
Proof. intros. apply Rpower_lt; lra. Qed.
Lemma pow10_pos x : 0 < Rpower 10 x.
Proof. apply exp_pos. Qed.
Lemma sqrt_mono x y : 0 <= x -> x < y -> sqrt x < sqrt y.
Proof. intros. apply sqrt_lt_1; lra. Qed.
(** the windows over the reals *)
Definition sw (k : window_kind) (m : R) : R :=
  match k with
  | GardnerKnopoff => Rpower 10 (0.1238 * m + 0.983)
  | Gruenthal => exp (1.77 + sqrt (0.037 + 1.02 * m))
  | Uhrhammer => exp (-1.024 + 0.804 * m)
  end.
Definition tw (k : window_kind) (m : R) : R :=
  match k with
  | GardnerKnopoff => if rlt m 6.5 then Rpower 10 (0.5409 * m - 0.547) else Rpower 10 (0.032 * m + 2.7389)
  | Gruenthal => if rle 6.5 m then Rpower 10 (2.8 + 0.024 * m) else exp (-3.95 + sqrt (0.62 + 17.32 * m))
  | Uhrhammer => exp (-2.87 + 1.235 * m)
  end.
(** Gruenthal's windows need a magnitude of -0.62/17.32 (about -0.036) or more *)
Definition usable (k : window_kind) (m : R) : Prop := match k with Gruenthal => -0.62 / 17.32 <= m | _ => True end.
Lemma space_window_real k m : usable k m -> space_window k (Fin m) = Fin (sw k m).
Proof.
  intros Hu. destruct k; unfold space_window, sw; rewrite ?x_lit, ?x_mul, ?x_add, ?x_sub.
  - rewrite x_pow10. apply f_equal. apply f_equal. cbn. lra.
  - rewrite x_sqrt by (cbn in *; lra). rewrite x_add, x_exp. apply f_equal. apply f_equal. apply f_equal2; [cbn; lra|]. apply f_equal. cbn. lra.
  - rewrite x_exp. apply f_equal. apply f_equal. cbn. lra.
Qed.
Lemma time_window_real k m : usable k m -> time_window k (Fin m) = Fin (tw k m).
Proof.
  intros Hu. destruct k; unfold time_window, tw; rewrite ?x_lit, ?x_mul, ?x_add, ?x_sub, ?x_ltb, ?x_leb.
  - replace (IZR 65 / IZR (10 ^ Z.of_nat 1)) with 6.5 by (cbn; lra). destruct (rlt m 6.5); rewrite x_pow10; apply f_equal; apply f_equal; cbn; lra.
  - replace (IZR 65 / IZR (10 ^ Z.of_nat 1)) with 6.5 by (cbn; lra). destruct (rle 6.5 m); [rewrite x_pow10; apply f_equal; apply f_equal; cbn; lra|].
    rewrite x_sqrt by (cbn in *; lra). rewrite x_add, x_exp, x_abs. rewrite Rabs_right by (left; apply exp_pos). apply f_equal. apply f_equal. apply f_equal2; [cbn; lra|]. apply f_equal. cbn. lra.
  - rewrite x_exp. apply f_equal. apply f_equal. cbn. lra.
Qed.
Lemma sw_pos k m : 0 < sw k m.
Proof. destruct k; apply exp_pos. Qed.
Lemma tw_pos k m : 0 < tw k m.
Proof. destruct k; unfold tw; [destruct (rlt _ _)|destruct (rle _ _)|]; apply exp_pos. Qed.
(** space windows are positive and strictly increasing in the magnitude *)
Theorem C49_space_windows : forall k m m', usable k m -> usable k m' -> m < m' -> exists s s',
  space_window k (Fin m) = Fin s /\ space_window k (Fin m') = Fin s' /\ 0 < s < s'.
Proof.
  intros k m m' U U' H. exists (sw k m), (sw k m'). rewrite !space_window_real by assumption. split; [reflexivity|]. split; [reflexivity|]. split; [apply sw_pos|].
  destruct k; unfold sw.
  - apply pow10_lt. lra.
  - apply exp_increasing. cbn in *. pose proof (sqrt_mono (0.037 + 1.02 * m) (0.037 + 1.02 * m')). lra.
  - apply exp_increasing. lra.
Qed.
Print Assumptions C49_space_windows.
(** exp (6.69) < 10^2.956 *)
Lemma exp_bound x n : 0 <= x -> (0 < n)%nat -> x < INR n -> exp (- x) >= (1 - x / INR n) ^ n.
Proof.
  intros Hx Hn H. assert (Hp : 0 < INR n) by (apply lt_0_INR; exact Hn).
  replace (exp (- x)) with (exp (- x / INR n) ^ n).
  - apply Rle_ge, pow_incr. assert (0 <= x / INR n < 1). { split; [apply Rmult_le_pos; [exact Hx|left; apply Rinv_0_lt_compat; exact Hp]|]. apply (Rmult_lt_reg_r (INR n)); [exact Hp|]. unfold Rdiv. rewrite Rmult_assoc, Rinv_l by lra. lra. }
    split; [lra|]. pose proof (exp_ineq1_le (- x / INR n)). replace (- x / INR n) with (- (x / INR n)) in * by (unfold Rdiv; ring). lra.
  - rewrite <- Rpower_pow by apply exp_pos. unfold Rpower. rewrite ln_exp. f_equal. field. lra.
Qed.
Lemma ln10_bound : 2.264 <= ln 10.
Proof.
  assert (H : exp (- (2.264)) >= / 10).
  { pose proof (exp_bound 2.264 128 ltac:(lra) ltac:(lia)) as B. assert (E : INR 128 = 128) by (rewrite INR_IZR_INZ; reflexivity). rewrite E in B. specialize (B ltac:(lra)).
    apply Rge_trans with ((1 - 2.264 / 128) ^ 128); [exact B|]. replace 128%nat with (2 * (2 * (2 * (2 * (2 * (2 * 2))))))%nat by reflexivity. rewrite !pow_mult.
    set (q := 1 - 2.264 / 128). assert (Q : 0.98231 <= q) by (unfold q; lra).
    assert (S : forall a b, 0 <= a -> a * a >= b -> forall c, a <= c -> b <= c ^ 2). { intros a b Ha Hab c Hc. cbn. rewrite Rmult_1_r. nra. }
    pose proof (S 0.98231 0.96493 ltac:(lra) ltac:(lra) _ Q) as Q1. pose proof (S 0.96493 0.93108 ltac:(lra) ltac:(lra) _ Q1) as Q2. pose proof (S 0.93108 0.86690 ltac:(lra) ltac:(lra) _ Q2) as Q3.
    pose proof (S 0.86690 0.75151 ltac:(lra) ltac:(lra) _ Q3) as Q4. pose proof (S 0.75151 0.56476 ltac:(lra) ltac:(lra) _ Q4) as Q5. pose proof (S 0.56476 0.31895 ltac:(lra) ltac:(lra) _ Q5) as Q6.
    pose proof (S 0.31895 0.1017 ltac:(lra) ltac:(lra) _ Q6) as Q7. lra. }
  rewrite exp_Ropp in H. assert (P : 0 < exp 2.264) by apply exp_pos. assert (exp 2.264 <= 10). { apply Rge_le in H. apply Rinv_le_contravar in H; [|lra]. rewrite !Rinv_inv in H. exact H. }
  rewrite <- (ln_exp 2.264). destruct H0 as [H0|H0]; [left; apply ln_increasing; assumption|right; rewrite H0; reflexivity].
Qed.
Lemma gruenthal_step m m' : -0.62 / 17.32 <= m < 6.5 -> 6.5 <= m' -> exp (-3.95 + sqrt (0.62 + 17.32 * m)) < Rpower 10 (2.8 + 0.024 * m').
Proof.
  intros H H'. assert (S : sqrt (0.62 + 17.32 * m) <= 10.64).
  { replace 10.64 with (sqrt (10.64 * 10.64)) by (apply sqrt_square; lra). apply sqrt_le_1; lra. }
  unfold Rpower. apply exp_increasing. pose proof ln10_bound. nra.
Qed.
(** the time windows of Gruenthal and Uhrhammer are positive and strictly increasing *)
Theorem C49_time_windows : forall k m m', k <> GardnerKnopoff -> usable k m -> usable k m' -> m < m' -> exists t t',
  time_window k (Fin m) = Fin t /\ time_window k (Fin m') = Fin t' /\ 0 < t < t'.
Proof.
  intros k m m' Hk U U' H. exists (tw k m), (tw k m'). rewrite !time_window_real by assumption. split; [reflexivity|]. split; [reflexivity|]. split; [apply tw_pos|].
  destruct k; unfold tw; [congruence| |apply exp_increasing; lra]. cbn in U, U'.
  assert (E : forall x, (rle 6.5 x = true /\ 6.5 <= x) \/ (rle 6.5 x = false /\ x < 6.5)). { intros x. destruct (rle 6.5 x) eqn:A; [left; apply rle_true in A|right; apply rle_false in A]; auto. }
  destruct (E m) as [[-> A]|[-> A]], (E m') as [[-> B]|[-> B]].
  - apply pow10_lt. lra.
  - lra.
  - apply gruenthal_step; lra.
  - apply exp_increasing. pose proof (sqrt_mono (0.62 + 17.32 * m) (0.62 + 17.32 * m')). lra.
Qed.
Print Assumptions C49_time_windows.
(** those of Gardner and Knopoff are positive, and strictly increasing on either side of 6.5 *)
Theorem C49_gardner_knopoff_time : forall m m', m < m' -> (m' < 6.5 \/ 6.5 <= m) -> exists t t',
  time_window GardnerKnopoff (Fin m) = Fin t /\ time_window GardnerKnopoff (Fin m') = Fin t' /\ 0 < t < t'.
Proof.
  intros m m' H Hs. exists (tw GardnerKnopoff m), (tw GardnerKnopoff m'). rewrite !time_window_real by exact I. split; [reflexivity|]. split; [reflexivity|]. split; [apply tw_pos|].
  unfold tw. assert (E : forall x, (rlt x 6.5 = true /\ x < 6.5) \/ (rlt x 6.5 = false /\ 6.5 <= x)). { intros x. destruct (rlt x 6.5) eqn:A; [left; apply rlt_true in A|right; apply rlt_false in A]; auto. }
  destruct (E m) as [[-> A]|[-> A]], (E m') as [[-> B]|[-> B]]; try lra; apply pow10_lt; lra.
Qed.
Print Assumptions C49_gardner_knopoff_time.
(** a cutoff c > 0 replaces the time window t by min(t, c) *)
Theorem C49_cutoff : forall k c m, 0 < c -> usable k m ->
  cut_time (Some (Fin c)) (time_window k (Fin m)) = Fin (Rmin (tw k m) c) /\ cut_time None (time_window k (Fin m)) = Fin (tw k m).
Proof.
  intros k c m Hc U. rewrite time_window_real by exact U. unfold cut_time. rewrite x_zero, x_eqb, (proj2 (req_false c 0)) by lra. unfold clip. rewrite x_max2, x_min2.
  rewrite Rmax_left by (left; apply tw_pos). split; reflexivity.
Qed.
Print Assumptions C49_cutoff.
Example C49_example : exists t t', time_window Gruenthal (Fin 6.4) = Fin t /\ time_window Gruenthal (Fin 6.6) = Fin t' /\ 0 < t < t'.
Proof. apply C49_time_windows; try discriminate; cbn; lra. Qed.

(** ** C92: the time windows of Gardner and Knopoff over all magnitudes *)
(** drop by 5 percent at 6.5 *)
Theorem C92_gardner_knopoff_time_refuted : exists m m' t t', m < m' /\
  time_window GardnerKnopoff (Fin m) = Fin t /\ time_window GardnerKnopoff (Fin m') = Fin t' /\ t' < t.
Proof.
  exists 6.49, 6.5, (tw GardnerKnopoff 6.49), (tw GardnerKnopoff 6.5). rewrite !time_window_real by exact I. split; [lra|]. split; [reflexivity|]. split; [reflexivity|].
  unfold tw. rewrite (proj2 (rlt_true 6.49 6.5)), (proj2 (rlt_false 6.5 6.5)) by lra. apply pow10_lt. lra.
Qed.
Print Assumptions C92_gardner_knopoff_time_refuted.
(** ** C93: a time cutoff of 0 *)
Theorem C93_zero_cutoff_refuted : forall k m, usable k m -> exists t, cut_time (Some (Fin 0)) (time_window k (Fin m)) = Fin t /\ 0 < t.
Proof.
  intros k m U. rewrite time_window_real by exact U. exists (tw k m). unfold cut_time. rewrite x_zero, x_eqb, (proj2 (req_true 0 0)) by reflexivity. split; [reflexivity|apply tw_pos].
Qed.
Print Assumptions C93_zero_cutoff_refuted.
(** ** C94: Gruenthal's windows for negative magnitudes *)
Theorem C94_gruenthal_negative_refuted : forall m,
  (m < -0.037 / 1.02 -> space_window Gruenthal (Fin m) = NaN) /\
  (m < -0.62 / 17.32 -> time_window Gruenthal (Fin m) = NaN) /\
  (-0.62 / 17.32 <= m -> exists s t, space_window Gruenthal (Fin m) = Fin s /\ time_window Gruenthal (Fin m) = Fin t /\ 0 < s /\ 0 < t).
Proof.
  intros m. assert (S : forall r, r < 0 -> nsqrt (Fin r) = NaN). { intros r Hr. cbn. destruct (Rlt_dec r 0); [reflexivity|lra]. }
  split; [|split]; intros H.
  - unfold space_window. rewrite !x_lit, !x_mul, !x_add. rewrite S by (cbn; lra). reflexivity.
  - unfold time_window. rewrite !x_lit, !x_mul, !x_add, x_leb. rewrite S by (cbn; lra). rewrite (proj2 (rle_false _ _)) by (cbn; lra). reflexivity.
  - exists (sw Gruenthal m), (tw Gruenthal m). rewrite space_window_real, time_window_real by exact H. repeat split; [apply sw_pos|apply tw_pos].
Qed.
Print Assumptions C94_gruenthal_negative_refuted.
