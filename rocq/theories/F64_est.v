(** * The estimators in double precision: relative error *)
From Coq Require Import ZArith List Bool Reals Lia Lra Psatz Permutation.
From Flocq Require Import Core Relative.
From Verif Require Import Base Num XR RList Binning_model BValue_model Openquake_model F64 Spec_F64 F64_proofs F64_test F64_select F64_fmd F64_acc.
Import ListNotations.
Open Scope R_scope.

Lemma near_bounds e x y : 0 <= y -> 0 <= e <= 1 / 100 -> near e x y -> 0.98 * y <= x <= 1.02 * y.
Proof.
  intros Hy He N. pose proof (err_of_near e x y Hy He N) as E. apply Rabs_le_inv in E.
  assert (y * (e * 1.02) <= y * 0.0102) by (apply Rmult_le_compat_l; lra). lra.
Qed.
Tactic Notation "bnd" hyp(N) ident(B) tactic3(t1) tactic3(t2) :=
  match type of N with near ?e ?x ?y =>
    let H1 := fresh in let H2 := fresh in assert (H1 : 0 <= y) by t1; assert (H2 : 0 <= e <= 1 / 100) by t2;
    pose proof (near_bounds e x y H1 H2 N) as B; clear H1 H2 end.
Lemma g_div L a b : b <> 0 -> Rabs (a / b) <= big -> @ndiv xr (F64 L) (Fin a) (Fin b) = Fin (rnd (a / b)). Proof. apply f_div. Qed.
Lemma g_add L a b : Rabs (a + b) <= big -> @nadd xr (F64 L) (Fin a) (Fin b) = Fin (rnd (a + b)). Proof. apply f_add. Qed.
Lemma g_mul L a b : Rabs (a * b) <= big -> @nmul xr (F64 L) (Fin a) (Fin b) = Fin (rnd (a * b)). Proof. apply f_mul. Qed.
Section Est.
  Context (L : libm) (j : Z) (d : nat) (W : usual_width j d) (HS : sums_in_some_order L) (HL : log_accurate L).
  #[local] Instance FI8 : Num xr := F64 L.
  Let w := widthR j d.
  Let Wb : 1 / 10000 <= w <= 10 := W_bounds j d W.
  Let eL : R := 402 * r1 / w.
  Lemma w_inv : / 10 <= / w <= 10000.
  Proof. split; [apply Rinv_le_contravar; lra|]. replace 10000 with (/ (1 / 10000)) by field. apply Rinv_le_contravar; lra. Qed.
  Lemma eL_bounds : 0 <= eL <= / 1000000000.
  Proof.
    pose proof w_inv. pose proof r1_val as [R0 R1]. unfold eL, Rdiv. split; [apply Rmult_le_pos; lra|].
    apply Rle_trans with (402 * r1 * 10000); [apply Rmult_le_compat_l; lra|]. unfold r1, u. lra.
  Qed.
  (** one difference *)
  Lemma diff_near K K0 : moderate j d K -> moderate j d K0 -> (K0 <= K)%Z -> exists x,
    nsub (Fin (decimal j d K)) (Fin (decimal j d K0)) = Fin x /\ near eL x (IZR (K - K0) * w) /\ (x = 0 \/ / 100000 <= x <= 201).
  Proof.
    intros H H0 HK. pose proof (dec_err j d K) as E. pose proof (dec_err j d K0) as E0. fold w in E, E0. unfold moderate in H, H0. fold w in H, H0.
    assert (B : Rabs (IZR K * w) * u <= 100 * u) by (apply Rmult_le_compat_r; [unfold u; lra|exact H]).
    assert (B0 : Rabs (IZR K0 * w) * u <= 100 * u) by (apply Rmult_le_compat_r; [unfold u; lra|exact H0]).
    apply Rabs_le_inv in E, E0, H, H0. pose proof u_val as U. unfold FI8. unfold h in *.
    rewrite f_sub by (unfold big; apply Rabs_le; lra).
    set (D := decimal j d K - decimal j d K0) in *.
    pose proof (rnd_err_le D 201 ltac:(unfold D; apply Rabs_le; lra)) as R. apply Rabs_le_inv in R. unfold h in R.
    eexists. split; [reflexivity|].
    assert (X : Rabs (rnd D - IZR (K - K0) * w) <= 402 * u).
    { rewrite minus_IZR. unfold D in *. apply Rabs_le. unfold u in *. lra. }
    destruct (Z.eq_dec K K0) as [->|Hne].
    - unfold D. rewrite Rminus_diag_eq, rnd_0 by reflexivity. split; [|left; reflexivity].
      rewrite Z.sub_diag, Rmult_0_l. apply near_refl; [lra|apply eL_bounds].
    - assert (K1 : 1 <= IZR (K - K0)) by (apply IZR_le; lia).
      assert (Y : w <= IZR (K - K0) * w) by (rewrite <- (Rmult_1_l w) at 1; apply Rmult_le_compat_r; lra).
      split.
      + replace eL with (402 * u / w * 1.02) by (unfold eL, r1; field; lra). pose proof w_inv. apply near_of_err; [lra| |].
        * unfold Rdiv. split; [apply Rmult_le_pos; lra|]. apply Rle_trans with (402 * u * 10000); [apply Rmult_le_compat_l; lra|unfold u; lra].
        * eapply Rle_trans; [exact X|]. apply Rle_trans with (402 * u / w * w); [right; field; lra|]. apply Rmult_le_compat_l; [|exact Y].
          unfold Rdiv. apply Rmult_le_pos; lra.
      + right. apply Rabs_le_inv in X. rewrite minus_IZR in *. unfold u in *. lra.
  Qed.
  (** l_ln *)
  Lemma log_near x : 1 < x <= 10000000000000 -> rnd x = x -> exists y, l_ln L (Fin x) = Fin y /\ near (4 * r1) y (ln x).
  Proof.
    intros Hx Hf. assert (Hx2 : 1 < x < maxfin).
    { split; [lra|]. unfold maxfin. apply Rlt_le_trans with (bpow radix2 50); [cbn; lra|apply bpow_le; lia]. }
    destruct (HL x Hx2 Hf) as (y & E & A). exists y. split; [exact E|].
    assert (0 < ln x) by (rewrite <- ln_1; apply ln_increasing; lra).
    replace (4 * r1) with (4 * u * 1.02) by (unfold r1; ring). apply near_of_err; [lra|unfold u; lra|].
    eapply Rle_trans; [exact A|]. right. unfold u. field.
  Qed.
  Lemma log10_near : exists y, l_ln L (Fin 10) = Fin y /\ near (4 * r1) y (ln 10).
  Proof. apply log_near; [lra|]. apply (rnd_int 10). cbn; lia. Qed.
  (** the mean of doubles close to non-negative numbers *)
  Lemma mean_near e xs ys : 0 <= e <= / 1000 -> Forall2 (near e) xs ys -> (forall y, In y ys -> 0 <= y) -> 0 < Rsum ys ->
    w / 4 <= Rsum ys -> (forall x, In x xs -> x = 0 \/ / 1000000000 <= x <= 1000) -> INR (length xs) <= 1099511627776 ->
    exists a, nmean (map Fin xs) = Fin a /\ near (e + (INR (length xs) + 1) * r1) a (Rsum ys / INR (length ys)).
  Proof.
    intros He F Hy Sy Sw Hx Hn. pose proof r1_val as [R0 R1].
    assert (Len : length ys = length xs) by (clear - F; induction F; cbn; congruence).
    assert (Hne : xs <> []) by (intros ->; inversion F; subst; unfold Rsum in Sy; cbn in Sy; lra).
    destruct (sum_near L xs HS Hne Hx Hn) as (s & Es & Ns).
    assert (N1 : near e (Rsum xs) (Rsum ys)).
    { clear - F He. induction F as [|x y xs ys H F IH]; [unfold Rsum; cbn; apply near_refl; lra|]. rewrite !Rsum_cons. apply near_plus; assumption. }
    pose proof (near_trans _ _ _ _ _ Ns N1) as N. set (n := INR (length xs)) in *.
    assert (Pn : 1 <= n) by (unfold n; change 1 with (INR 1); apply le_INR; destruct xs; [congruence|cbn; lia]).
    assert (Ee : 0 <= n * r1 + e <= 1 / 100).
    { split; [assert (0 <= n * r1) by (apply Rmult_le_pos; lra); lra|]. assert (n * r1 <= 1099511627776 * r1) by (apply Rmult_le_compat_r; lra). unfold r1, u in *. lra. }
    assert (Y0 : 0 <= Rsum ys) by lra. pose proof (near_bounds _ _ _ Y0 Ee N) as Bs.
    assert (Sx : Rsum ys <= 2000 * n).
    { assert (Rsum xs <= 1000 * n).
      { unfold n. clear - Hx. induction xs as [|x xs IH]; [unfold Rsum; cbn; lra|]. rewrite Rsum_cons. cbn [length]. rewrite S_INR.
        assert (x <= 1000) by (destruct (Hx x (or_introl eq_refl)); lra). specialize (IH (fun z Hz => Hx z (or_intror Hz))). lra. }
      bnd N1 B1 (lra) (lra). lra. }
    unfold nmean. rewrite map_length. unfold ofnat, FI8. rewrite f_ofZ by (rewrite Z.abs_eq by lia; apply le_IZR; rewrite <- INR_IZR_INZ; fold n; change (2 ^ 53)%Z with 9007199254740992%Z; lra).
    rewrite <- INR_IZR_INZ. fold n. change (@nsum xr (F64 L) (map Fin xs)) with (l_sum L (map Fin xs)). rewrite Es.
    assert (Q : 0 < / n <= 1) by (split; [apply Rinv_0_lt_compat; lra|rewrite <- Rinv_1; apply Rinv_le_contravar; lra]).
    assert (Q2 : / 1099511627776 <= / n) by (apply Rinv_le_contravar; lra).
    assert (S0 : 0 < s) by lra.
    assert (Sn : s * / 1099511627776 <= s / n <= s) by (unfold Rdiv; split; [apply Rmult_le_compat_l; lra|rewrite <- (Rmult_1_r s) at 2; apply Rmult_le_compat_l; lra]).
    rewrite f_div.
    2: lra. 2:{ rewrite Rabs_pos_eq by (unfold Rdiv; apply Rmult_le_pos; lra). unfold big. lra. }
    eexists. split; [reflexivity|]. rewrite Len. fold n.
    replace (e + (n + 1) * r1) with (r1 + ((n * r1 + e) + 0)) by ring. eapply near_trans; [apply near_rnd; unfold h; lra|].
    apply near_div; [lra|lra|exact N|apply near_refl; lra].
  Qed.
  (** beta = 1/delta ln (1 + delta / av), b = beta / ln 10 *)
  Lemma classic_near e av A n : 0 <= e -> 1 <= n <= 1099511627776 -> e <= / 1000 -> w / n <= A <= 201 -> near e av A ->
    exists b, beta_to_b_value (nmul (ndiv one (dec_val (width j d))) (nln (nadd one (ndiv (dec_val (width j d)) (Fin av))))) = Fin b /\
      near (e + (216 / w + 17) * r1) b (ln (1 + w / A) / w / ln 10).
  Proof.
    intros He Hn He2 HA N. pose proof r1_val as [R0 R1]. pose proof w_inv as Wi.
    assert (Wn : / 20000000000000000 <= w / n). { unfold Rdiv. assert (/ 1099511627776 <= / n) by (apply Rinv_le_contravar; lra). apply Rle_trans with (1 / 10000 * / 1099511627776); [lra|]. apply Rmult_le_compat; lra. }
    assert (A0 : 0 < A) by lra. bnd N Ba (lra) (lra).
    unfold beta_to_b_value, one, FI8. rewrite f_dec by exact W. fold w. rewrite !f_ofZ by (cbn; lia).
    pose proof (near_rnd w ltac:(unfold h; lra)) as ND. bnd ND BD (lra) (unfold r1, u; lra). set (D := rnd w) in *.
    (* q *)
    assert (Q1 : w / 201 <= w / A <= n).
    { split; [unfold Rdiv; apply Rmult_le_compat_l; [lra|apply Rinv_le_contravar; lra]|]. apply Rmult_le_reg_r with A; [exact A0|]. unfold Rdiv. rewrite Rmult_assoc, Rinv_l by lra.
      apply Rle_trans with (n * (w / n)); [right; field; lra|]. apply Rmult_le_compat_l; lra. }
    assert (w0 : 0 <= w) by lra. pose proof (near_div _ _ _ _ _ _ w0 A0 ND N) as Nq0. bnd Nq0 Bq0 (lra) (unfold r1, u; lra).
    rewrite (g_div L D av); [|lra|unfold big; rewrite Rabs_pos_eq; lra].
    pose proof (near_trans _ _ _ _ _ (near_rnd (D / av) ltac:(unfold h; lra)) Nq0) as Nq. set (q := rnd (D / av)) in *.
    bnd Nq Bq (lra) (unfold r1, u; lra).
    (* p *)
    rewrite (g_add L 1 q) by (unfold big; rewrite Rabs_pos_eq; lra).
    pose proof (near_rnd (1 + q) ltac:(unfold h; lra)) as Np. pose proof (rnd_format (1 + q)) as Fp. apply rnd_id in Fp. set (p := rnd (1 + q)) in *.
    assert (IQ : / q <= 210 / w).
    { replace (210 / w) with (/ (w / 210)) by (field; lra). apply Rinv_le_contravar; lra. }
    assert (IQ0 : 0 < / q) by (apply Rinv_0_lt_compat; lra).
    assert (IQ1 : r1 * (1 + / q) <= 1 / 1000). { apply Rle_trans with (r1 * (1 + 210 * 10000)); [apply Rmult_le_compat_l; unfold Rdiv in IQ; lra|unfold r1, u; lra]. }
    pose proof (near_ln r1 p q ltac:(lra) ltac:(lra) ltac:(lra) Np) as Nl1.
    assert (Pgt : 1 < p).
    { pose proof (err_of_near r1 p (1 + q) ltac:(lra) ltac:(unfold r1, u; lra) Np) as E. apply Rabs_le_inv in E.
      assert (X : (1 + q) * (r1 * 1.02) = r1 * 1.02 * (1 + / q) * q) by (field; lra).
      assert (X2 : r1 * 1.02 * (1 + / q) * q < 1 * q) by (apply Rmult_lt_compat_r; lra). lra. }
    assert (eq0 : 0 <= r1 + (r1 + e)) by lra. assert (wa0 : 0 <= w / A) by lra. pose proof (near_ln1p _ q (w / A) eq0 wa0 Nq) as Nl2.
    pose proof (near_trans _ _ _ _ _ Nl1 Nl2) as Nl3.
    assert (Ple : p <= 10000000000000) by (bnd Np Bp (lra) (unfold r1, u; lra); lra).
    destruct (log_near p (conj Pgt Ple) Fp) as (y & Ey & Ny). pose proof (near_trans _ _ _ _ _ Ny Nl3) as Nl. clear Nl1 Nl2 Nl3 Ny.
    change (@nln xr (F64 L) (Fin p)) with (l_ln L (Fin p)). rewrite Ey.
    assert (Lq : 0 < ln (1 + w / A)) by (rewrite <- ln_1; apply ln_increasing; lra).
    assert (Lb : / 10000000000 <= ln (1 + w / A) <= 1099511627776).
    { split.
      - pose proof (ln_tangent 1 (1 + w / A) ltac:(lra) ltac:(lra)) as T. rewrite ln_1 in T.
        replace ((1 - (1 + w / A)) / (1 + w / A)) with (- / (1 + / (w / A))) in T by (field; lra).
        assert (/ (w / A) <= 2010000). { replace 2010000 with (/ (/ 2010000)) by field. apply Rinv_le_contravar; lra. }
        assert (0 < / (w / A)) by (apply Rinv_0_lt_compat; lra).
        assert (/ 2010001 <= / (1 + / (w / A))) by (apply Rinv_le_contravar; lra). lra.
      - pose proof (ln_tangent (1 + w / A) 1 ltac:(lra) ltac:(lra)) as T. rewrite ln_1 in T. replace ((1 + w / A - 1) / 1) with (w / A) in T by (field; lra). lra. }
    set (ex := 4 * r1 + (r1 * (1 + / q) * 1.02 + (r1 + (r1 + e)))) in *.
    assert (Hex : 0 <= ex <= / 100 - 100 * r1) by (unfold ex; unfold r1, u in *; lra).
    assert (HR : 100 * r1 <= / 1000000) by (unfold r1, u; lra).
    (* 1 / delta *)
    assert (ID : 0.05 <= 1 / D <= 20000).
    { unfold Rdiv. rewrite Rmult_1_l. split; [replace 0.05 with (/ 20) by lra; apply Rinv_le_contravar; lra|replace 20000 with (/ (/ 20000)) by field; apply Rinv_le_contravar; lra]. }
    rewrite (g_div L 1 D); [|lra|unfold big; rewrite Rabs_pos_eq; lra].
    pose proof (near_div 0 r1 1 1 D w ltac:(lra) ltac:(lra) (near_refl 0 1 ltac:(lra) ltac:(lra)) ND) as Ni0.
    pose proof (near_trans _ _ _ _ _ (near_rnd (1 / D) ltac:(unfold h; lra)) Ni0) as Ni. set (i := rnd (1 / D)) in *.
    (* the product *)
    assert (iw0 : 0 <= 1 / w) by (unfold Rdiv; lra). pose proof (near_mult _ _ _ _ _ _ iw0 (Rlt_le _ _ Lq) Ni Nl) as Nb0.
    bnd Nb0 Bb0 (apply Rmult_le_pos; unfold Rdiv; lra) (lra).
    assert (Pr : / 1000000000000 <= 1 / w * ln (1 + w / A) <= 20000000000000000).
    { unfold Rdiv at 1 3. rewrite Rmult_1_l. split; [apply Rle_trans with (/ 10 * / 10000000000); [lra|apply Rmult_le_compat; lra]|].
      apply Rle_trans with (10000 * 1099511627776); [apply Rmult_le_compat; lra|lra]. }
    rewrite (g_mul L i y) by (unfold big; rewrite Rabs_pos_eq; lra).
    pose proof (near_trans _ _ _ _ _ (near_rnd (i * y) ltac:(unfold h; lra)) Nb0) as Nb1. set (beta := rnd (i * y)) in *.
    bnd Nb1 Bb1 (lra) (lra).
    (* ln 10 *)
    destruct log10_near as (t & Et & Nt). change (@nln xr (F64 L) (Fin 10)) with (l_ln L (Fin 10)). rewrite Et.
    assert (T10 : 1 <= ln 10 <= 9).
    { split; [rewrite <- (ln_exp 1); apply ln_mono; [apply exp_pos|pose proof exp_le_3; lra]|]. pose proof (ln_tangent 10 1 ltac:(lra) ltac:(lra)) as T. rewrite ln_1 in T. lra. }
    bnd Nt Bt (lra) (lra).
    assert (pw0 : 0 <= 1 / w * ln (1 + w / A)) by lra. assert (l0 : 0 < ln 10) by lra. pose proof (near_div _ _ _ _ _ _ pw0 l0 Nb1 Nt) as Nf.
    assert (Ft : / 10 <= / t <= 2). { split; [apply Rinv_le_contravar; lra|replace 2 with (/ (/ 2)) by field; apply Rinv_le_contravar; lra]. }
    assert (Bf : h <= beta / t <= big).
    { unfold h, big, Rdiv. split; [apply Rle_trans with (/ 10000000000000 * / 10); [lra|apply Rmult_le_compat; lra]|].
      apply Rle_trans with (40000000000000000 * 2); [apply Rmult_le_compat; lra|lra]. }
    rewrite (g_div L beta t); [|lra|rewrite Rabs_pos_eq; unfold h in Bf; lra].
    eexists. split; [reflexivity|].
    pose proof (near_trans _ _ _ _ _ (near_rnd (beta / t) ltac:(lra)) Nf) as NF.
    replace (ln (1 + w / A) / w / ln 10) with (1 / w * ln (1 + w / A) / ln 10) by (field; lra).
    eapply near_le; [| |exact NF].
    - unfold Rdiv at 1. apply Rmult_le_pos; [lra|left; apply Rinv_0_lt_compat; lra].
    - unfold ex. replace ((216 / w + 17) * r1) with (r1 * (216 / w) + 17 * r1) by ring.
      assert (r1 * (/ q) <= r1 * (210 / w)) by (apply Rmult_le_compat_l; lra). assert (0 <= r1 * / w) by (apply Rmult_le_pos; lra).
      unfold Rdiv in *. lra.
  Qed.
  (** one Utsu term *)
  Lemma half_near : exists q, ndiv (dec_val (width j d)) two = Fin q /\ near (2 * r1) q (w / 2) /\ 0.48 * w <= q <= 6.
  Proof.
    pose proof r1_val as [R0 R1]. unfold two, FI8. rewrite f_dec, f_ofZ by (exact W || (cbn; lia)). fold w.
    pose proof (near_rnd w ltac:(unfold h; lra)) as ND. bnd ND BD (lra) (unfold r1, u; lra). set (D := rnd w) in *.
    rewrite g_div; [|lra|unfold big; rewrite Rabs_pos_eq; lra]. eexists. split; [reflexivity|].
    assert (w0 : 0 <= w) by lra. assert (z2 : 0 < 2) by lra.
    pose proof (near_div _ _ _ _ _ _ w0 z2 ND (near_refl 0 2 ltac:(lra) ltac:(lra))) as N0.
    pose proof (near_trans _ _ _ _ _ (near_rnd (D / 2) ltac:(unfold h; lra)) N0) as N1.
    assert (N2 : near (2 * r1) (rnd (D / 2)) (w / 2)) by (apply near_le with (r1 + (r1 + 0)); [lra|lra|exact N1]).
    split; [exact N2|]. bnd N2 B2 (lra) (unfold r1, u; lra). lra.
  Qed.
  Lemma utsu_leaf K K0 : moderate j d K -> moderate j d K0 -> (K0 <= K)%Z -> exists x,
    nadd (nsub (Fin (decimal j d K)) (Fin (decimal j d K0))) (ndiv (dec_val (width j d)) two) = Fin x /\
    near (eL + r1) x (IZR (K - K0) * w + w / 2) /\ / 1000000 <= x <= 300.
  Proof.
    intros H H0 HK. destruct (diff_near K K0 H H0 HK) as (x & -> & Nx & Bx). destruct half_near as (q & -> & Nq & Bq).
    pose proof r1_val as [R0 R1]. pose proof eL_bounds as EL. pose proof w_inv as Wi.
    assert (X : 0 <= x <= 201) by (destruct Bx; lra). unfold FI8. rewrite g_add by (unfold big; rewrite Rabs_pos_eq; lra).
    eexists. split; [reflexivity|].
    assert (K1 : 0 <= IZR (K - K0) * w) by (apply Rmult_le_pos; [apply IZR_le; lia|lra]).
    assert (EL2 : 2 * r1 <= eL). { unfold eL, Rdiv. apply Rle_trans with (402 * r1 * / 10); [lra|]. apply Rmult_le_compat_l; lra. }
    assert (N : near eL (x + q) (IZR (K - K0) * w + w / 2)) by (apply near_plus; [exact Nx|apply near_le with (2 * r1); [lra|exact EL2|exact Nq]]).
    pose proof (near_rnd (x + q) ltac:(unfold h; lra)) as NR. split.
    - rewrite Rplus_comm. eapply near_trans; eassumption.
    - bnd NR BR (lra) (unfold r1, u; lra). lra.
  Qed.
  Lemma utsu_near e av A : 0 <= e -> e <= / 1000 -> w / 2 <= A <= 250 -> near e av A ->
    exists b, beta_to_b_value (ndiv one (Fin av)) = Fin b /\ near (e + 6 * r1) b (1 / A / ln 10).
  Proof.
    intros He He2 HA N. pose proof r1_val as [R0 R1]. pose proof w_inv as Wi.
    assert (A0 : 0 < A) by lra. bnd N Ba (lra) (lra). unfold beta_to_b_value, one, FI8. rewrite !f_ofZ by (cbn; lia).
    assert (IA : / 300 <= / av <= 40000). { split; [apply Rinv_le_contravar; lra|replace 40000 with (/ (/ 40000)) by field; apply Rinv_le_contravar; lra]. }
    rewrite (g_div L 1 av); [|lra|unfold big; rewrite Rabs_pos_eq; lra].
    pose proof (near_div _ _ _ _ _ _ (ltac:(lra) : 0 <= 1) A0 (near_refl 0 1 ltac:(lra) ltac:(lra)) N) as N0.
    pose proof (near_trans _ _ _ _ _ (near_rnd (1 / av) ltac:(unfold h; lra)) N0) as N1. set (beta := rnd (1 / av)) in *.
    assert (IA2 : / 250 <= 1 / A <= 20000). { unfold Rdiv. rewrite Rmult_1_l. split; [apply Rinv_le_contravar; lra|replace 20000 with (/ (/ 20000)) by field; apply Rinv_le_contravar; lra]. }
    bnd N1 B1 (lra) (unfold r1, u; lra).
    destruct log10_near as (t & Et & Nt). change (@nln xr (F64 L) (Fin 10)) with (l_ln L (Fin 10)). rewrite Et.
    assert (T10 : 1 <= ln 10 <= 9).
    { split; [rewrite <- (ln_exp 1); apply ln_mono; [apply exp_pos|pose proof exp_le_3; lra]|]. pose proof (ln_tangent 10 1 ltac:(lra) ltac:(lra)) as T. rewrite ln_1 in T. lra. }
    bnd Nt Bt (lra) (unfold r1, u; lra).
    assert (pw0 : 0 <= 1 / A) by lra. assert (l0 : 0 < ln 10) by lra. pose proof (near_div _ _ _ _ _ _ pw0 l0 N1 Nt) as Nf.
    assert (Ft : / 10 <= / t <= 2). { split; [apply Rinv_le_contravar; lra|replace 2 with (/ (/ 2)) by field; apply Rinv_le_contravar; lra]. }
    assert (Bf : h <= beta / t <= big).
    { unfold h, big, Rdiv. split; [apply Rle_trans with (/ 1000 * / 10); [lra|apply Rmult_le_compat; lra]|].
      apply Rle_trans with (40000 * 2); [apply Rmult_le_compat; lra|lra]. }
    rewrite (g_div L beta t); [|lra|rewrite Rabs_pos_eq; unfold h in Bf; lra].
    eexists. split; [reflexivity|]. pose proof (near_trans _ _ _ _ _ (near_rnd (beta / t) ltac:(lra)) Nf) as NF.
    eapply near_le; [| |exact NF]; [|lra]. unfold Rdiv at 1. apply Rmult_le_pos; [lra|left; apply Rinv_0_lt_compat; lra].
  Qed.
  (** ** the estimators on binned magnitudes *)
  Definition at_index (ks : list Z) : list xr := map (fun k => Fin (decimal j d k)) ks.
  Lemma collect (f : xr -> xr) (g : Z -> R) e (P : R -> Prop) ks : (forall k, In k ks -> exists x, f (Fin (decimal j d k)) = Fin x /\ near e x (g k) /\ P x) ->
    exists xs, map f (at_index ks) = map Fin xs /\ Forall2 (near e) xs (map g ks) /\ (forall x, In x xs -> P x).
  Proof.
    induction ks as [|k ks IH]; intros H; [exists []; split; [reflexivity|split; [constructor|intros _ []]]|].
    destruct (H k (or_introl eq_refl)) as (x & E & N & Px). destruct IH as (xs & E2 & N2 & P2); [intros; apply H; right; assumption|].
    exists (x :: xs). unfold at_index in *. cbn [map]. rewrite E, E2. split; [reflexivity|]. split; [constructor; assumption|]. intros y [<-|Hy]; auto.
  Qed.
  Lemma sum_bounds (g : Z -> R) lo hi ks : (forall k, In k ks -> lo <= g k <= hi) -> INR (length ks) * lo <= Rsum (map g ks) <= INR (length ks) * hi.
  Proof.
    induction ks as [|k ks IH]; intros H; [unfold Rsum; cbn; lra|]. cbn [map length]. rewrite Rsum_cons, S_INR.
    pose proof (H k (or_introl eq_refl)). specialize (IH (fun z Hz => H z (or_intror Hz))). lra.
  Qed.
  Lemma sum_ge (g : Z -> R) v ks : (forall k, In k ks -> 0 <= g k) -> (exists k, In k ks /\ v <= g k) -> v <= Rsum (map g ks).
  Proof.
    induction ks as [|k ks IH]; intros H (k1 & Hi & Hv); [destruct Hi|]. cbn [map]. rewrite Rsum_cons.
    assert (P : 0 <= Rsum (map g ks)). { clear - H. induction ks as [|a ks IH]; [unfold Rsum; cbn; lra|]. cbn [map]. rewrite Rsum_cons. assert (0 <= g a) by (apply H; right; left; reflexivity). assert (0 <= Rsum (map g ks)) by (apply IH; intros z [->|Hz]; apply H; [left|right; right]; auto). lra. }
    pose proof (H k (or_introl eq_refl)). destruct Hi as [->|Hi]; [lra|]. assert (v <= Rsum (map g ks)) by (apply IH; [intros; apply H; right; assumption|eauto]). lra.
  Qed.
  Lemma diff_range K K0 : moderate j d K -> moderate j d K0 -> (K0 <= K)%Z -> 0 <= IZR (K - K0) * w <= 200.
  Proof.
    unfold moderate. fold w. intros H H0 HK. apply Rabs_le_inv in H, H0. split; [apply Rmult_le_pos; [apply IZR_le; lia|lra]|]. rewrite minus_IZR. lra.
  Qed.
  Lemma mle_accurate ks kc : (forall k, In k ks -> moderate j d k /\ (kc <= k)%Z) -> moderate j d kc -> (exists k, In k ks /\ (kc < k)%Z) ->
    (Z.of_nat (length ks) <= 2 ^ 40)%Z ->
    exists b, mle_estimator (at_index ks) (Fin (decimal j d kc)) (width j d) None = Ok (Fin b) /\
      Rabs (b - exact_classic w (mean_excess w kc ks)) <= exact_classic w (mean_excess w kc ks) * allowed_error w (length ks).
  Proof.
    intros Hk Hc (k1 & Hi1 & Hk1) Hn. pose proof r1_val as [R0 R1]. pose proof w_inv as Wi. pose proof eL_bounds as EL.
    assert (Hn2 : INR (length ks) <= 1099511627776) by (rewrite INR_IZR_INZ; apply IZR_le; exact Hn).
    assert (Hn1 : 1 <= INR (length ks)) by (change 1 with (INR 1); apply le_INR; destruct ks; [destruct Hi1|cbn; lia]).
    destruct (collect (fun m => nsub m (Fin (decimal j d kc))) (fun k => IZR (k - kc) * w) eL (fun x => x = 0 \/ / 1000000000 <= x <= 1000) ks) as (xs & Ex & Fx & Px).
    { intros k Hi. destruct (Hk k Hi) as (M & LE). destruct (diff_near k kc M Hc LE) as (x & E & N & B). exists x. split; [exact E|]. split; [exact N|]. destruct B; [left; assumption|right; lra]. }
    assert (Lx : length xs = length ks) by (transitivity (length (map (fun k => IZR (k - kc) * w) ks)); [clear - Fx; induction Fx; cbn; congruence|apply map_length]).
    set (ys := map (fun k => IZR (k - kc) * w) ks) in *.
    assert (Ly : length ys = length ks) by apply map_length.
    assert (Y0 : forall k, In k ks -> 0 <= IZR (k - kc) * w <= 200) by (intros k Hi; destruct (Hk k Hi); apply diff_range; assumption).
    assert (Sw : w <= Rsum ys).
    { apply sum_ge; [intros k Hi; apply Y0, Hi|]. exists k1. split; [exact Hi1|]. rewrite <- (Rmult_1_l w) at 1. apply Rmult_le_compat_r; [lra|]. apply IZR_le. lia. }
    pose proof (sum_bounds (fun k => IZR (k - kc) * w) 0 200 ks Y0) as Su. fold ys in Su.
    destruct (mean_near eL xs ys) as (a & Ea & Na); [lra|exact Fx| |lra|lra|exact Px|rewrite Lx; exact Hn2|].
    { intros y Hy. unfold ys in Hy. apply in_map_iff in Hy. destruct Hy as (k & <- & Hi). apply Y0, Hi. }
    rewrite Lx, Ly in Na. set (n := INR (length ks)) in *.
    assert (EA : mean_excess w kc ks = Rsum ys / n) by reflexivity.
    assert (HA : w / n <= Rsum ys / n <= 201).
    { split; [unfold Rdiv; apply Rmult_le_compat_r; [left; apply Rinv_0_lt_compat; lra|lra]|]. apply Rmult_le_reg_r with n; [lra|]. unfold Rdiv. rewrite Rmult_assoc, Rinv_l by lra. lra. }
    assert (Ee : 0 <= eL + (n + 1) * r1 <= / 1000).
    { split; [assert (0 <= (n + 1) * r1) by (apply Rmult_le_pos; lra); lra|]. assert ((n + 1) * r1 <= 1099511627777 * r1) by (apply Rmult_le_compat_r; lra). unfold r1, u in *. lra. }
    destruct (classic_near _ a _ n (proj1 Ee) (conj Hn1 Hn2) (proj2 Ee) HA Na) as (b & Eb & Nb).
    exists b. split.
    - unfold mle_estimator, np_average. rewrite Ex, Ea. cbn [rbind].
      assert (WP : nltb zero (dec_val (width j d)) = true) by exact (width_positive L j d W). rewrite WP, Eb. reflexivity.
    - rewrite EA. fold (exact_classic w (Rsum ys / n)) in Nb.
      assert (P : 0 < w / n) by (apply Rdiv_lt_0_compat; lra).
      assert (Q : 0 < w / (Rsum ys / n)) by (apply Rdiv_lt_0_compat; lra).
      assert (T : 0 < exact_classic w (Rsum ys / n)).
      { unfold exact_classic. apply Rdiv_lt_0_compat; [apply Rdiv_lt_0_compat; [rewrite <- ln_1; apply ln_increasing; lra|lra]|rewrite <- ln_1; apply ln_increasing; lra]. }
      set (E := eL + (n + 1) * r1 + (216 / w + 17) * r1) in *.
      assert (EE : E = (n + 618 / w + 18) * r1) by (unfold E, eL; field; lra).
      assert (E1 : E <= 1 / 100). { unfold E, Rdiv in *. assert (r1 * (/ w) <= r1 * 10000) by (apply Rmult_le_compat_l; lra). unfold r1, u in *. lra. }
      assert (E0 : 0 <= E). { unfold E, Rdiv. assert (0 <= r1 * / w) by (apply Rmult_le_pos; lra). lra. }
      eapply Rle_trans; [apply (err_of_near E); [lra|lra|exact Nb]|]. apply Rmult_le_compat_l; [lra|]. rewrite EE. unfold allowed_error. fold n.
      replace ((n + 620 / w + 20) / 4503599627370496) with ((n + 620 / w + 20) * (2 * u)) by (unfold u; field; lra).
      assert (0 <= / w) by lra. unfold Rdiv. rewrite Rmult_assoc. apply Rmult_le_compat; [lra|lra|lra|unfold r1, u; lra].
  Qed.
  Lemma utsu_accurate ks kc : (forall k, In k ks -> moderate j d k /\ (kc <= k)%Z) -> moderate j d kc -> ks <> [] ->
    (Z.of_nat (length ks) <= 2 ^ 40)%Z ->
    exists b, utsu_estimator (at_index ks) (Fin (decimal j d kc)) (width j d) None = Ok (Fin b) /\
      Rabs (b - exact_utsu w (mean_excess w kc ks)) <= exact_utsu w (mean_excess w kc ks) * allowed_error w (length ks).
  Proof.
    intros Hk Hc Hne Hn. pose proof r1_val as [R0 R1]. pose proof w_inv as Wi. pose proof eL_bounds as EL.
    assert (Hn2 : INR (length ks) <= 1099511627776) by (rewrite INR_IZR_INZ; apply IZR_le; exact Hn).
    assert (Hn1 : 1 <= INR (length ks)) by (change 1 with (INR 1); apply le_INR; destruct ks; [congruence|cbn; lia]).
    destruct (collect (fun m => nadd (nsub m (Fin (decimal j d kc))) (ndiv (dec_val (width j d)) two)) (fun k => IZR (k - kc) * w + w / 2) (eL + r1) (fun x => x = 0 \/ / 1000000000 <= x <= 1000) ks) as (xs & Ex & Fx & Px).
    { intros k Hi. destruct (Hk k Hi) as (M & LE). destruct (utsu_leaf k kc M Hc LE) as (x & E & N & B). exists x. split; [exact E|]. split; [exact N|]. right; lra. }
    assert (Lx : length xs = length ks) by (transitivity (length (map (fun k => IZR (k - kc) * w + w / 2) ks)); [clear - Fx; induction Fx; cbn; congruence|apply map_length]).
    set (ys := map (fun k => IZR (k - kc) * w + w / 2) ks) in *.
    assert (Ly : length ys = length ks) by apply map_length.
    assert (Y0 : forall k, In k ks -> w / 2 <= IZR (k - kc) * w + w / 2 <= 205) by (intros k Hi; destruct (Hk k Hi); pose proof (diff_range k kc ltac:(assumption) Hc ltac:(assumption)); lra).
    pose proof (sum_bounds (fun k => IZR (k - kc) * w + w / 2) (w / 2) 205 ks Y0) as Su. fold ys in Su.
    set (n := INR (length ks)) in *.
    assert (Sw : w / 2 <= n * (w / 2)) by (rewrite <- (Rmult_1_l (w / 2)) at 1; apply Rmult_le_compat_r; lra).
    destruct (mean_near (eL + r1) xs ys) as (a & Ea & Na); [unfold r1, u in *; lra|exact Fx| |lra|lra|exact Px|rewrite Lx; exact Hn2|].
    { intros y Hy. unfold ys in Hy. apply in_map_iff in Hy. destruct Hy as (k & <- & Hi). pose proof (Y0 k Hi). lra. }
    rewrite Lx, Ly in Na. fold n in Na.
    assert (EA : Rsum ys / n = mean_excess w kc ks + w / 2).
    { unfold mean_excess. fold n. assert (S : Rsum ys = Rsum (map (fun k => IZR (k - kc) * w) ks) + n * (w / 2)).
      { unfold ys, n. clear. induction ks as [|k ks IH]; [unfold Rsum; cbn; lra|]. cbn [map length]. rewrite !Rsum_cons, S_INR, IH. lra. }
      rewrite S. field. lra. }
    assert (HA : w / 2 <= Rsum ys / n <= 250).
    { split; apply Rmult_le_reg_r with n; try lra; replace (Rsum ys / n * n) with (Rsum ys) by (field; lra); lra. }
    set (e := eL + r1 + (n + 1) * r1) in *.
    assert (Ee : 0 <= e <= / 1000).
    { unfold e. split; [assert (0 <= (n + 1) * r1) by (apply Rmult_le_pos; lra); lra|]. assert ((n + 1) * r1 <= 1099511627777 * r1) by (apply Rmult_le_compat_r; lra). unfold r1, u in *. lra. }
    destruct (utsu_near e a _ (proj1 Ee) (proj2 Ee) HA Na) as (b & Eb & Nb).
    exists b. split.
    - unfold utsu_estimator, np_average. rewrite Ex, Ea. cbn [rbind]. rewrite Eb. reflexivity.
    - unfold exact_utsu. rewrite <- EA.
      assert (T : 0 < 1 / (Rsum ys / n) / ln 10). { apply Rdiv_lt_0_compat; [apply Rdiv_lt_0_compat; lra|rewrite <- ln_1; apply ln_increasing; lra]. }
      set (E := e + 6 * r1) in *.
      assert (EE : E = (n + 402 / w + 8) * r1) by (unfold E, e, eL; field; lra).
      assert (E1 : E <= 1 / 100) by (unfold E; unfold r1, u in *; lra).
      assert (E0 : 0 <= E) by (unfold E; lra).
      eapply Rle_trans; [apply (err_of_near E); [lra|lra|exact Nb]|]. apply Rmult_le_compat_l; [lra|]. rewrite EE. unfold allowed_error. fold n.
      replace ((n + 620 / w + 20) / 4503599627370496) with ((n + 620 / w + 20) * (2 * u)) by (unfold u; field; lra).
      assert (0 <= / w) by lra. unfold Rdiv. rewrite Rmult_assoc. apply Rmult_le_compat; [lra|lra|lra|unfold r1, u; lra].
  Qed.
End Est.
