(** * Conversion of texts to numbers in double precision *)
From Coq Require Import ZArith List Bool String Ascii Lia Reals Lra Psatz.
From Flocq Require Import Core Relative.
From Verif Require Import Base Num XR Utils_model Openquake_model F64 Spec_F64 F64_proofs Numeric_model Spec_Numeric Numeric_proofs.
Import ListNotations.
Open Scope R_scope.

(** ** decimal digits *)
Lemma dv_acc ds : forall a, fold_left (fun a d => 10 * a + Z.of_nat d)%Z ds a = (a * 10 ^ Z.of_nat (List.length ds) + digits_value ds)%Z.
Proof.
  induction ds as [|d ds IH]; intros a; [cbn; lia|]. unfold digits_value. cbn [fold_left List.length]. rewrite !IH.
  rewrite Nat2Z.inj_succ, Z.pow_succ_r by lia. ring.
Qed.
Lemma dv_app a b : digits_value (app a b) = (digits_value a * 10 ^ Z.of_nat (List.length b) + digits_value b)%Z.
Proof. unfold digits_value at 1. rewrite fold_left_app, dv_acc. reflexivity. Qed.
Lemma dv_snoc a d : digits_value (app a [d]) = (10 * digits_value a + Z.of_nat d)%Z.
Proof. rewrite dv_app. cbn [List.length]. change (Z.of_nat 1) with 1%Z. rewrite Z.pow_1_r. change (digits_value [d]) with (10 * 0 + Z.of_nat d)%Z. lia. Qed.
Lemma dv_nonneg ds : (0 <= digits_value ds)%Z.
Proof. induction ds as [|d ds IH] using rev_ind; [cbn; lia|]. rewrite dv_snoc. lia. Qed.
Lemma dv_bound ds : all_digits ds -> (digits_value ds < 10 ^ Z.of_nat (List.length ds))%Z.
Proof.
  induction ds as [|d ds IH] using rev_ind; intros H; [cbn; lia|]. apply Forall_app in H. destruct H as [H1 H2]. apply Forall_inv in H2. specialize (IH H1).
  rewrite dv_snoc, app_length, Nat2Z.inj_add. cbn [List.length]. change (Z.of_nat 1) with 1%Z. rewrite Z.pow_add_r by lia. change (10 ^ 1)%Z with 10%Z. lia.
Qed.
Lemma dv_prefix a b : (digits_value a <= digits_value (app a b))%Z.
Proof. rewrite dv_app. pose proof (dv_nonneg a). pose proof (dv_nonneg b). assert (1 <= 10 ^ Z.of_nat (List.length b))%Z by (apply Z.lt_pred_le; cbn; apply Z.pow_pos_nonneg; lia). nia. Qed.

(** ** powers of ten *)
Lemma pow10_pos k : (0 <= k)%Z -> (0 < 10 ^ k)%Z. Proof. intros H. apply Z.pow_pos_nonneg; lia. Qed.
Lemma powerRZ_10 k : (0 <= k)%Z -> powerRZ 10 k = IZR (10 ^ k).
Proof. intros H. rewrite <- (Z2Nat.id k H). rewrite <- pow_powerRZ. rewrite <- pow_IZR. reflexivity. Qed.
Lemma powerRZ_10_neg k : (0 <= k)%Z -> powerRZ 10 (- k) = / IZR (10 ^ k).
Proof. intros H. rewrite powerRZ_neg', powerRZ_10 by exact H. reflexivity. Qed.
Lemma powerRZ_pos k : 0 < powerRZ 10 k. Proof. apply powerRZ_lt. lra. Qed.
Lemma rnd_pow10 k : (0 <= k <= 22)%Z -> rnd (IZR (10 ^ k)) = IZR (10 ^ k).
Proof.
  intros H. apply rnd_id. apply generic_format_FLT. exists (Float radix2 (5 ^ k) k); cbn [Fnum Fexp].
  - unfold F2R; cbn [Fnum Fexp]. replace (10 ^ k)%Z with (5 ^ k * 2 ^ k)%Z by (rewrite <- Z.pow_mul_l; reflexivity). rewrite mult_IZR. f_equal.
    rewrite <- IZR_Zpower by lia. reflexivity.
  - rewrite Z.abs_eq by (apply Z.pow_nonneg; lia). apply Z.le_lt_trans with (5 ^ 22)%Z; [apply Z.pow_le_mono_r; lia|vm_compute; reflexivity].
  - lia.
Qed.

Lemma fl_big x : Rabs x <= bpow radix2 1000 -> fl x = Fin (rnd x).
Proof.
  intros H. unfold fl. destruct (Rlt_dec (Rabs (rnd x)) maxfin) as [A|A]; [reflexivity|]. exfalso. apply A.
  rewrite rnd_abs. apply Rle_lt_trans with (bpow radix2 1000); [rewrite <- (rnd_pow 1000) by lia; apply rnd_mono; exact H|apply bpow_lt; lia].
Qed.
Lemma pow10_2 k : (0 <= k)%Z -> IZR (10 ^ k) <= bpow radix2 (4 * k).
Proof.
  intros H. replace (bpow radix2 (4 * k)) with (IZR (16 ^ k)).
  - apply IZR_le. apply Z.pow_le_mono_l. lia.
  - change 16%Z with (2 ^ 4)%Z. rewrite <- Z.pow_mul_r by lia. change 2%Z with (radix_val radix2) at 1. apply IZR_Zpower. lia.
Qed.
Lemma pow10_ge1 k : (0 <= k)%Z -> 1 <= IZR (10 ^ k).
Proof. intros H. apply IZR_le. pose proof (pow10_pos k H). lia. Qed.

(** ** exact reading *)
Section Exact.
  Context (L : libm).
  #[local] Instance FI : Num xr := F64 L.
  Lemma F_ofZ z : (Z.abs z <= 2 ^ 53)%Z -> @ofZ xr (F64 L) z = Fin (IZR z). Proof. apply f_ofZ. Qed.
  Lemma step_eq A d : (d < 10)%nat -> Rabs A <= bpow radix2 500 ->
    (Fin A * ofZ 10 + ofZ (Z.of_nat d))%num = fl (rnd (A * 10) + IZR (Z.of_nat d)).
  Proof.
    intros Hd HA. unfold FI. rewrite !F_ofZ by (cbn; lia). change (@nmul xr (F64 L) (Fin A) (Fin 10)) with (fl (A * 10)). rewrite fl_big; [reflexivity|].
    rewrite Rabs_mult, (Rabs_pos_eq 10) by lra. apply Rle_trans with (bpow radix2 500 * bpow radix2 4).
    - change (bpow radix2 4) with 16. pose proof (Rabs_pos A). nra.
    - rewrite <- bpow_plus. apply bpow_le. lia.
  Qed.
  Lemma acc_exact ds : all_digits ds -> (digits_value ds <= 2 ^ 53)%Z -> acc zero ds = Fin (IZR (digits_value ds)).
  Proof.
    induction ds as [|d ds IH] using rev_ind; intros Hd Hv; [unfold acc; cbn [fold_left]; unfold zero, FI; rewrite F_ofZ by (cbn; lia); reflexivity|].
    apply Forall_app in Hd. destruct Hd as [H1 H2]. apply Forall_inv in H2. rewrite dv_snoc in Hv. pose proof (dv_nonneg ds) as Hn.
    rewrite acc_app, IH by (try assumption; lia). cbn [acc fold_left]. rewrite dv_snoc.
    rewrite step_eq; [|exact H2|].
    - rewrite <- mult_IZR, rnd_int by (rewrite Z.abs_eq; lia). rewrite <- plus_IZR. replace (digits_value ds * 10 + Z.of_nat d)%Z with (10 * digits_value ds + Z.of_nat d)%Z by lia.
      apply F_ofZ. rewrite Z.abs_eq; lia.
    - rewrite Rabs_pos_eq by (apply IZR_le; lia). apply Rle_trans with (IZR (2 ^ 53)); [apply IZR_le; lia|]. change (IZR (2 ^ 53)) with (bpow radix2 53). apply bpow_le. lia.
  Qed.
  (** the scaling by an exact power of ten *)
  Lemma scale_exact r k : (Z.abs k <= 22)%Z -> Rabs r <= IZR (2 ^ 53) -> rnd r = r ->
    scale (Fin r) k = Some (Fin (rnd (r * powerRZ 10 k))).
  Proof.
    intros Hk Hr Hf. unfold scale. destruct (Z.ltb_spec 308 k); [lia|].
    assert (HB : IZR (2 ^ 53) * IZR (10 ^ 22) <= bpow radix2 1000).
    { apply Rle_trans with (bpow radix2 53 * bpow radix2 (4 * 22)); [|rewrite <- bpow_plus; apply bpow_le; lia].
      apply Rmult_le_compat; [apply IZR_le; lia|apply IZR_le; lia|right; reflexivity|apply pow10_2; lia]. }
    assert (P22 : forall j, (0 <= j <= 22)%Z -> @ofZ xr FI (10 ^ j) = Fin (IZR (10 ^ j))).
    { intros j Hj. change (fl (IZR (10 ^ j)) = Fin (IZR (10 ^ j))). rewrite fl_big; [rewrite rnd_pow10 by exact Hj; reflexivity|].
      rewrite Rabs_pos_eq by (apply IZR_le; apply Z.pow_nonneg; lia). eapply Rle_trans; [apply pow10_2; lia|]. apply bpow_le. lia. }
    destruct (Z.ltb_spec 0 k) as [K|K].
    - rewrite P22 by lia. change (@nmul xr FI (Fin r) (Fin (IZR (10 ^ k)))) with (fl (r * IZR (10 ^ k))). rewrite powerRZ_10 by lia.
      rewrite fl_big; [reflexivity|]. rewrite Rabs_mult. eapply Rle_trans; [|exact HB]. apply Rmult_le_compat; [apply Rabs_pos|apply Rabs_pos|exact Hr|].
      rewrite Rabs_pos_eq by (apply IZR_le; apply Z.pow_nonneg; lia). apply IZR_le. apply Z.pow_le_mono_r; lia.
    - destruct (Z.ltb_spec k (-616)); [lia|]. destruct (Z.ltb_spec k (-308)); [lia|]. rewrite P22 by lia.
      assert (D : @ndiv xr FI (Fin r) (Fin (IZR (10 ^ (- k)))) = fl (r / IZR (10 ^ (- k)))).
      { cbn [ndiv FI F64]. unfold xdiv. destruct (Req_EM_T _ _) as [C|C]; [pose proof (pow10_ge1 (- k) ltac:(lia)); lra|]. reflexivity. }
      rewrite D. replace k with (- - k)%Z at 3 by lia. rewrite powerRZ_10_neg by lia. fold (r / IZR (10 ^ (- k))).
      pose proof (pow10_ge1 (- k) ltac:(lia)) as G. rewrite fl_big; [reflexivity|]. unfold Rdiv. rewrite Rabs_mult, Rabs_inv.
      rewrite (Rabs_pos_eq (IZR _)) by lra. apply Rle_trans with (IZR (2 ^ 53) * 1).
      + apply Rmult_le_compat; [apply Rabs_pos|left; apply Rinv_0_lt_compat; lra|exact Hr|]. rewrite <- Rinv_1. apply Rinv_le_contravar; lra.
      + rewrite Rmult_1_r. change (IZR (2 ^ 53)) with (bpow radix2 53). apply bpow_le. lia.
  Qed.
  Lemma used_all n : (List.length (app (n_int n) (frac_digits n)) <= 17)%nat -> used n = app (n_int n) (frac_digits n).
  Proof. intros H. unfold used. apply firstn_all2. exact H. Qed.
  Lemma shift_all n : (List.length (app (n_int n) (frac_digits n)) <= 17)%nat -> shift n = exponent n.
  Proof. intros H. unfold shift. rewrite used_all by exact H. rewrite app_length. unfold exponent. lia. Qed.
  Lemma all_digits_nat n : well_formed n -> all_digits (app (n_int n) (frac_digits n)).
  Proof. intros (W1 & W2 & _). apply Forall_app. split; assumption. Qed.
  Lemma signed_fin s z : signed s (Fin (IZR z)) = Fin (IZR (sgn_Z s * z)).
  Proof. destruct s; cbn [signed sgn_Z]; rewrite ?Z.mul_1_l; try reflexivity. replace (-1 * z)%Z with (- z)%Z by lia. rewrite opp_IZR. reflexivity. Qed.

  Lemma read_exact n t : spells t n -> (List.length (app (n_int n) (frac_digits n)) <= 17)%nat -> (mantissa n <= 2 ^ 53)%Z -> (Z.abs (exponent n) <= 22)%Z ->
    xstrtod t = Some (Fin (rnd (value n)), is_integer n).
  Proof.
    intros (W & b1 & b2 & H1 & H2 & ->) Hl Hm He. rewrite xstrtod_spelled by assumption. rewrite shift_all, used_all by exact Hl.
    rewrite acc_exact by (try apply all_digits_nat; assumption). fold (mantissa n). rewrite signed_fin.
    assert (A : Z.abs (sgn_Z (n_sign n) * mantissa n) = mantissa n). { pose proof (dv_nonneg (app (n_int n) (frac_digits n))) as P. fold (mantissa n) in P. destruct (n_sign n); cbn [sgn_Z]; lia. }
    rewrite scale_exact; [reflexivity|exact He| |].
    - rewrite <- abs_IZR, A. apply IZR_le. exact Hm.
    - apply rnd_int. rewrite A. exact Hm.
  Qed.
End Exact.

(** ** accuracy *)
Lemma rnd_delta x : x = 0 \/ bpow radix2 (-1022) <= Rabs x -> exists d, Rabs d <= u /\ rnd x = x * (1 + d).
Proof.
  intros [-> |H]; [exists 0; split; [rewrite Rabs_R0; apply Rlt_le, u_val|rewrite rnd_0; ring]|].
  assert (N0 : x <> 0). { intros ->. rewrite Rabs_R0 in H. pose proof (bpow_gt_0 radix2 (-1022)). lra. }
  pose proof (relative_error_N_FLT radix2 (-1074) 53 ltac:(reflexivity) (fun z => negb (Z.even z)) x H) as E.
  exists ((rnd x - x) / x). split; [|field; exact N0]. unfold Rdiv. rewrite Rabs_mult, Rabs_inv.
  assert (U : / 2 * bpow radix2 (- (53) + 1) = u) by (unfold u; cbn; lra). rewrite U in E. change (Znearest (fun z => negb (Z.even z))) with ZnearestE in E. fold (rnd x) in E.
  pose proof (Rabs_pos_lt x N0) as P. apply Rmult_le_reg_r with (Rabs x); [exact P|]. rewrite Rmult_assoc, Rinv_l by lra. lra.
Qed.
Lemma big_normal x : 1 <= Rabs x -> x = 0 \/ bpow radix2 (-1022) <= Rabs x.
Proof. intros H. right. eapply Rle_trans; [|exact H]. change 1 with (bpow radix2 0). apply bpow_le. lia. Qed.
Lemma step_err A M d e : 0 <= M -> (M = 0 \/ 1 <= M) -> 0 <= d <= 9 -> (d = 0 \/ 1 <= d) -> 0 <= e <= 5 * u -> Rabs (A - M) <= e * M ->
  Rabs (rnd (rnd (A * 10) + d) - (10 * M + d)) <= (e + 21 / 10 * u) * (10 * M + d) /\ (M = 0 -> A = 0).
Proof.
  intros HM HM1 Hd Hd1 He HA. pose proof u_val as [U0 U1].
  assert (Z0 : M = 0 -> A = 0). { intros ->. rewrite Rmult_0_r in HA. pose proof (Rabs_pos (A - 0)). assert (Q : Rabs (A - 0) = 0) by lra. rewrite Rminus_0_r in Q. destruct (Req_dec A 0) as [|C]; [assumption|]. apply Rabs_no_R0 in C. lra. }
  split; [|exact Z0].
  apply Rabs_le_inv in HA. assert (EM : e * M <= M / 1000) by nra.
  assert (N1 : A * 10 = 0 \/ bpow radix2 (-1022) <= Rabs (A * 10)).
  { destruct HM1 as [C|C]; [left; rewrite (Z0 C); ring|]. apply big_normal. rewrite Rabs_pos_eq by lra. lra. }
  destruct (rnd_delta (A * 10) N1) as (d1 & D1 & ->). apply Rabs_le_inv in D1.
  set (B := A * 10 * (1 + d1)).
  assert (HB : Rabs (B - 10 * M) <= (e + 101 / 100 * u) * (10 * M)).
  { unfold B. apply Rabs_le. assert (A * d1 <= 1001 / 1000 * M * u /\ - (1001 / 1000 * M * u) <= A * d1).
    { assert (0 <= A <= 1001 / 1000 * M) by lra. split; nra. }
    assert (0 <= M * u) by nra. split; nra. }
  apply Rabs_le_inv in HB. assert (EB : (e + 101 / 100 * u) * (10 * M) <= (10 * M) / 1000) by nra.
  assert (N2 : B + d = 0 \/ bpow radix2 (-1022) <= Rabs (B + d)).
  { destruct HM1 as [C|C].
    - unfold B. rewrite (Z0 C). destruct Hd1 as [-> |Hd1]; [left; ring|]. apply big_normal. replace (0 * 10 * (1 + d1) + d) with d by ring. rewrite Rabs_pos_eq; lra.
    - apply big_normal. rewrite Rabs_pos_eq; lra. }
  destruct (rnd_delta (B + d) N2) as (d2 & D2 & ->). apply Rabs_le_inv in D2.
  assert (P0 : 0 <= B + d <= 1001 / 1000 * (10 * M + d)) by lra.
  assert (Q : (B + d) * d2 <= 1001 / 1000 * (10 * M + d) * u /\ - (1001 / 1000 * (10 * M + d) * u) <= (B + d) * d2) by (split; nra).
  apply Rabs_le. assert (0 <= (10 * M + d) * u) by nra. assert (0 <= M * u) by nra. assert (0 <= e * d) by nra. assert (0 <= d * u) by nra. split; nra.
Qed.

Section Accuracy.
  Context (L : libm).
  #[local] Instance FI2 : Num xr := F64 L.
  Lemma zdich z : (0 <= z)%Z -> IZR z = 0 \/ 1 <= IZR z.
  Proof. intros H. destruct (Z.eq_dec z 0) as [-> |C]; [left; reflexivity|right; apply IZR_le; lia]. Qed.
  (** one more digit *)
  Lemma acc_step ds d A e : all_digits ds -> (d < 10)%nat -> (List.length ds <= 17)%nat -> 0 <= e <= 5 * u ->
    acc zero ds = Fin A -> Rabs (A - IZR (digits_value ds)) <= e * IZR (digits_value ds) ->
    exists A', acc zero (app ds [d]) = Fin A' /\ Rabs (A' - IZR (digits_value (app ds [d]))) <= (e + 21 / 10 * u) * IZR (digits_value (app ds [d])).
  Proof.
    intros Hd Hd1 Hl He EA HA. pose proof (dv_nonneg ds) as Hn. pose proof (dv_bound ds Hd) as Hb.
    assert (Hn' : 0 <= IZR (digits_value ds)) by (apply IZR_le; exact Hn).
    assert (Hb' : IZR (digits_value ds) <= bpow radix2 70).
    { apply Rle_trans with (IZR (10 ^ 17)); [apply IZR_le|apply Rle_trans with (bpow radix2 (4 * 17)); [apply pow10_2; lia|apply bpow_le; lia]].
      apply Z.lt_le_incl. eapply Z.lt_le_trans; [exact Hb|]. apply Z.pow_le_mono_r; lia. }
    assert (D0 : 0 <= IZR (Z.of_nat d) <= 9) by (split; apply IZR_le; lia).
    destruct (step_err A (IZR (digits_value ds)) (IZR (Z.of_nat d)) e Hn' (zdich _ Hn) D0 (zdich _ (Zle_0_nat d)) He HA) as [S1 S2].
    pose proof u_val as [U0 U1]. apply Rabs_le_inv in HA. assert (A0 : 0 <= A <= 2 * IZR (digits_value ds)) by nra.
    assert (B71 : 2 * bpow radix2 70 = bpow radix2 71) by (cbn; lra).
    exists (rnd (rnd (A * 10) + IZR (Z.of_nat d))). split.
    - rewrite acc_app, EA. cbn [acc fold_left]. rewrite (step_eq L); [|exact Hd1|].
      + assert (R1 : 0 <= rnd (A * 10) <= bpow radix2 75).
        { split; [rewrite <- rnd_0; apply rnd_mono; lra|]. rewrite <- (rnd_pow 75) by lia. apply rnd_mono. change (bpow radix2 75) with (bpow radix2 (71 + 4)). rewrite bpow_plus. change (bpow radix2 4) with 16. lra. }
        apply fl_big. rewrite Rabs_pos_eq by lra. apply Rle_trans with (bpow radix2 75 + bpow radix2 75).
        * assert (9 <= bpow radix2 75) by (apply Rle_trans with (bpow radix2 4); [cbn; lra|apply bpow_le; lia]). lra.
        * assert (E2 : bpow radix2 75 + bpow radix2 75 = bpow radix2 76) by (cbn; lra). rewrite E2. apply bpow_le. lia.
      + rewrite Rabs_pos_eq by lra. apply Rle_trans with (bpow radix2 71); [lra|apply bpow_le; lia].
    - rewrite dv_snoc, plus_IZR, mult_IZR. exact S1.
  Qed.
  Lemma acc_near ds : all_digits ds -> (List.length ds <= 17)%nat ->
    exists A, acc zero ds = Fin A /\ Rabs (A - IZR (digits_value ds)) <= 42 / 10 * u * IZR (digits_value ds).
  Proof.
    intros Hd Hl. pose proof u_val as [U0 U1].
    assert (E : forall ds, all_digits ds -> (List.length ds <= 15)%nat -> exists A, acc zero ds = Fin A /\ Rabs (A - IZR (digits_value ds)) <= 0 * IZR (digits_value ds)).
    { clear. intros ds Hd Hl. exists (IZR (digits_value ds)). split; [|rewrite Rminus_diag_eq, Rabs_R0 by reflexivity; lra].
      apply (acc_exact L); [exact Hd|]. apply Z.lt_le_incl. eapply Z.lt_le_trans; [apply dv_bound; exact Hd|]. apply Z.le_trans with (10 ^ 15)%Z; [apply Z.pow_le_mono_r; lia|vm_compute; discriminate]. }
    assert (E16 : forall ds, all_digits ds -> (List.length ds <= 16)%nat -> exists A, acc zero ds = Fin A /\ Rabs (A - IZR (digits_value ds)) <= (0 + 21 / 10 * u) * IZR (digits_value ds)).
    { clear ds Hd Hl. intros ds. destruct ds as [|d ds _] using rev_ind.
      - intros _ _. exists 0. split; [unfold acc; cbn [fold_left]; unfold zero, FI2; rewrite (F_ofZ L) by (cbn; lia); reflexivity|]. cbn. rewrite Rminus_0_r, Rabs_R0. lra.
      - intros Hd Hl. rewrite app_length in Hl. cbn in Hl. apply Forall_app in Hd. destruct Hd as [H1 H2]. apply Forall_inv in H2.
        destruct (E ds H1 ltac:(lia)) as (A & EA & HA). apply (acc_step ds d A 0); try assumption; try lia; lra. }
    destruct ds as [|d ds _] using rev_ind.
    - exists 0. split; [unfold acc; cbn [fold_left]; unfold zero, FI2; rewrite (F_ofZ L) by (cbn; lia); reflexivity|]. cbn. rewrite Rminus_0_r, Rabs_R0. lra.
    - rewrite app_length in Hl. cbn in Hl. apply Forall_app in Hd. destruct Hd as [H1 H2]. apply Forall_inv in H2.
      destruct (E16 ds H1 ltac:(lia)) as (A & EA & HA). replace (42 / 10 * u) with ((0 + 21 / 10 * u) + 21 / 10 * u) by lra. apply (acc_step ds d A); try assumption; try lia; lra.
  Qed.
  (** scaling by a power of ten that may itself be rounded *)
  Lemma scale_near A M k : (Z.abs k <= 200)%Z -> (M = 0 \/ 1 <= M <= IZR (10 ^ 17)) -> Rabs (A - M) <= 42 / 10 * u * M -> forall s : bool,
    exists v, scale (Fin (if s then - A else A)) k = Some (Fin (if s then - v else v)) /\ Rabs (v - M * powerRZ 10 k) <= 7 * u * (M * powerRZ 10 k).
  Proof.
    intros Hk HM HA s. pose proof u_val as [U0 U1].
    assert (M0 : 0 <= M) by lra. apply Rabs_le_inv in HA. assert (A0 : 0 <= A <= 2 * M) by nra.
    assert (AZ : M = 0 -> A = 0) by (intros; nra).
    assert (AL : 1 <= M -> / 2 <= A) by (intros; nra).
    assert (P200 : forall j, (0 <= j <= 200)%Z -> exists d, Rabs d <= u /\ @ofZ xr FI2 (10 ^ j) = Fin (IZR (10 ^ j) * (1 + d))).
    { intros j Hj. pose proof (pow10_ge1 j ltac:(lia)) as G. destruct (rnd_delta (IZR (10 ^ j))) as (d & D & E).
      - apply big_normal. rewrite Rabs_pos_eq; lra.
      - exists d. split; [exact D|]. rewrite <- E. change (fl (IZR (10 ^ j)) = Fin (rnd (IZR (10 ^ j)))). apply fl_big. rewrite Rabs_pos_eq by lra.
        eapply Rle_trans; [apply pow10_2; lia|]. apply bpow_le. lia. }
    assert (MB : M <= bpow radix2 68) by (destruct HM as [-> |[_ HM]]; [apply bpow_ge_0|eapply Rle_trans; [exact HM|apply (pow10_2 17); lia]]).
    assert (SG : forall x, rnd (if s then - x else x) = (if s then - rnd x else rnd x)) by (intros x; destruct s; [apply rnd_opp|reflexivity]).
    assert (SA : forall x, Rabs (if s then - x else x) = Rabs x) by (intros x; destruct s; [apply Rabs_Ropp|reflexivity]).
    unfold scale. destruct (Z.ltb_spec 308 k); [lia|]. destruct (Z.ltb_spec 0 k) as [K|K].
    - destruct (P200 k ltac:(lia)) as (d1 & D1 & ->). pose proof (pow10_ge1 k ltac:(lia)) as G. rewrite powerRZ_10 by lia. set (P := IZR (10 ^ k)) in *.
      change (@nmul xr FI2 (Fin (if s then - A else A)) (Fin (P * (1 + d1)))) with (fl ((if s then - A else A) * (P * (1 + d1)))).
      replace ((if s then - A else A) * (P * (1 + d1))) with (if s then - (A * (P * (1 + d1))) else A * (P * (1 + d1))) by (destruct s; ring).
      apply Rabs_le_inv in D1. set (X := A * (P * (1 + d1))).
      assert (PB : P <= bpow radix2 800) by (eapply Rle_trans; [apply pow10_2; lia|apply bpow_le; lia]).
      assert (PD : 0 <= P * (1 + d1)) by (apply Rmult_le_pos; lra).
      assert (XB : Rabs X <= bpow radix2 1000).
      { unfold X. rewrite Rabs_pos_eq by (apply Rmult_le_pos; [lra|exact PD]). apply Rle_trans with (bpow radix2 69 * bpow radix2 801).
        - apply Rmult_le_compat; [lra|nra|change (bpow radix2 69) with (bpow radix2 (1 + 68)); rewrite bpow_plus; change (bpow radix2 1) with 2; lra|].
          change (bpow radix2 801) with (bpow radix2 (1 + 800)); rewrite bpow_plus; change (bpow radix2 1) with 2. nra.
        - rewrite <- bpow_plus. apply bpow_le. lia. }
      rewrite fl_big by (rewrite SA; exact XB). rewrite SG. cbn [nisinf FI2 F64]. exists (rnd X). split; [reflexivity|].
      destruct (rnd_delta X) as (d2 & D2 & ->).
      { destruct HM as [C|C]; [left; unfold X; rewrite (AZ C); ring|right]. eapply Rle_trans; [apply (bpow_le radix2 (-1022) (-3)); lia|].
        specialize (AL ltac:(lra)). unfold X. rewrite Rabs_pos_eq by (apply Rmult_le_pos; [lra|exact PD]). cbn. assert (/ 2 <= P * (1 + d1)) by nra. nra. }
      apply Rabs_le_inv in D2. unfold X. apply Rabs_le.
      assert (F : A * (1 + d1) * (1 + d2) - M <= 7 * u * M /\ - (7 * u * M) <= A * (1 + d1) * (1 + d2) - M).
      { assert (0 <= M * u) by nra. assert (F1 : A * (1 + d1) - M <= 53 / 10 * u * M /\ - (53 / 10 * u * M) <= A * (1 + d1) - M).
        { assert (A * d1 <= 1001 / 1000 * M * u /\ - (1001 / 1000 * M * u) <= A * d1) by (assert (0 <= A <= 1001 / 1000 * M) by nra; split; nra). lra. }
        assert (0 <= A * (1 + d1) <= 1001 / 1000 * M) by nra.
        assert (A * (1 + d1) * d2 <= 1001 / 1000 * M * u /\ - (1001 / 1000 * M * u) <= A * (1 + d1) * d2) by (split; nra). lra. }
      replace (A * (P * (1 + d1)) * (1 + d2) - M * P) with ((A * (1 + d1) * (1 + d2) - M) * P) by ring. split; nra.
    - destruct (Z.ltb_spec k (-616)); [lia|]. destruct (Z.ltb_spec k (-308)); [lia|]. destruct (P200 (- k)%Z ltac:(lia)) as (d1 & D1 & ->).
      pose proof (pow10_ge1 (- k) ltac:(lia)) as G. assert (PE : powerRZ 10 k = / IZR (10 ^ (- k))) by (rewrite <- powerRZ_10_neg by lia; f_equal; lia). rewrite PE. set (P := IZR (10 ^ (- k))) in *. apply Rabs_le_inv in D1.
      assert (PB : P <= bpow radix2 800) by (eapply Rle_trans; [apply pow10_2; lia|apply bpow_le; lia]).
      assert (Q0 : / 2 <= P * (1 + d1)) by nra.
      assert (D : @ndiv xr FI2 (Fin (if s then - A else A)) (Fin (P * (1 + d1))) = fl ((if s then - A else A) / (P * (1 + d1)))).
      { cbn [ndiv FI2 F64]. unfold xdiv. destruct (Req_EM_T _ _) as [C|C]; [lra|]. reflexivity. }
      rewrite D. replace ((if s then - A else A) / (P * (1 + d1))) with (if s then - (A / (P * (1 + d1))) else A / (P * (1 + d1))) by (destruct s; unfold Rdiv; ring).
      set (X := A / (P * (1 + d1))).
      assert (X0 : X * (P * (1 + d1)) = A) by (unfold X; field; lra).
      assert (XP : 0 <= X) by (unfold X; apply Rmult_le_pos; [lra|left; apply Rinv_0_lt_compat; lra]).
      assert (XB : Rabs X <= bpow radix2 1000).
      { rewrite Rabs_pos_eq by exact XP. apply Rle_trans with (bpow radix2 70); [|apply bpow_le; lia].
        change (bpow radix2 70) with (bpow radix2 (2 + 68)). rewrite bpow_plus. change (bpow radix2 2) with 4. nra. }
      rewrite fl_big by (rewrite SA; exact XB). rewrite SG. cbn [nisinf FI2 F64]. exists (rnd X). split; [reflexivity|].
      destruct (rnd_delta X) as (d2 & D2 & ->).
      { destruct HM as [C|C]; [left; unfold X; rewrite (AZ C); unfold Rdiv; ring|right]. specialize (AL ltac:(lra)). rewrite Rabs_pos_eq by exact XP.
        assert (S0 : / 4 <= X * P) by nra. apply Rle_trans with (bpow radix2 (-802)); [apply bpow_le; lia|].
        apply Rmult_le_reg_r with (bpow radix2 800); [apply bpow_gt_0|]. rewrite <- bpow_plus. change (bpow radix2 (-802 + 800)) with (/ 4). eapply Rle_trans; [exact S0|]. apply Rmult_le_compat_l; assumption. }
      apply Rabs_le_inv in D2.
      assert (F : X * P - M <= 53 / 10 * u * M /\ - (53 / 10 * u * M) <= X * P - M).
      { assert (0 <= M * u) by nra. assert (Y0 : 0 <= X * P) by nra. set (Y := X * P) in *. replace (X * (P * (1 + d1))) with (Y * (1 + d1)) in X0 by (unfold Y; ring).
        assert (Y <= 1001 / 1000 * M) by nra. assert (Y * d1 <= 1001 / 1000 * M * u /\ - (1001 / 1000 * M * u) <= Y * d1) by (split; nra). lra. }
      assert (F2 : X * (1 + d2) * P - M <= 7 * u * M /\ - (7 * u * M) <= X * (1 + d2) * P - M).
      { assert (0 <= M * u) by nra. set (Y := X * P) in *. replace (X * (1 + d2) * P) with (Y + Y * d2) by (unfold Y; ring). assert (0 <= Y <= 1001 / 1000 * M) by nra.
        assert (Y * d2 <= 1001 / 1000 * M * u /\ - (1001 / 1000 * M * u) <= Y * d2) by (split; nra). lra. }
      apply Rabs_le. assert (IP : 0 < / P) by (apply Rinv_0_lt_compat; lra).
      replace (X * (1 + d2) - M * / P) with ((X * (1 + d2) * P - M) * / P) by (field; lra). split; nra.
  Qed.
End Accuracy.
