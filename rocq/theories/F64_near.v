(** * The estimators in double precision when mc is close to a grid point *)
From Coq Require Import ZArith List Bool Reals Lia Lra Psatz Permutation.
From Flocq Require Import Core Relative.
From Verif Require Import Base Num XR RList Binning_model BValue_model Openquake_model F64 Spec_F64 F64_proofs F64_test F64_select F64_fmd F64_acc F64_est.
Import ListNotations.
Open Scope R_scope.

Lemma rsum_abs_nonneg xs : 0 <= Rsum (map Rabs xs).
Proof. induction xs as [|x xs IH]; [unfold Rsum; cbn; lra|]. cbn [map]. rewrite Rsum_cons. pose proof (Rabs_pos x). lra. Qed.
Lemma total_abs t : forall xs, leaves t = map Fin xs -> (forall x, In x xs -> Rabs x <= 1000) -> INR (length xs) <= 1099511627776 ->
  1 <= INR (length xs) /\ Rsum (map Rabs xs) <= 1000 * INR (length xs) /\
  exists s, total t = Fin s /\ Rabs (s - Rsum xs) <= (INR (length xs) - 1) * (r1 * Rsum (map Rabs xs) + 2 * h).
Proof.
  pose proof r1_val as [R0 R1]. induction t as [x|t1 IH1 t2 IH2]; intros xs E Hx Hn.
  - destruct xs as [|y [|]]; try discriminate. cbn [leaves map] in E. injection E as ->. specialize (Hx y (or_introl eq_refl)).
    unfold Rsum. cbn [fold_right length INR map]. split; [lra|]. split; [lra|]. exists y. split; [reflexivity|]. replace (y - (y + 0)) with 0 by ring. rewrite Rabs_R0. lra.
  - cbn [leaves] in E. symmetry in E. apply map_eq_app in E. destruct E as (x1 & x2 & -> & E1 & E2). rewrite map_app, app_length, plus_INR in *. rewrite !Rsum_app.
    pose proof (pos_INR (length x1)). pose proof (pos_INR (length x2)).
    destruct (IH1 x1 (eq_sym E1)) as (O1 & M1 & s1 & T1 & A1); [intros x Hi; apply Hx, in_or_app; auto|lra|].
    destruct (IH2 x2 (eq_sym E2)) as (O2 & M2 & s2 & T2 & A2); [intros x Hi; apply Hx, in_or_app; auto|lra|].
    pose proof (rsum_abs_nonneg x1) as P1. pose proof (rsum_abs_nonneg x2) as P2.
    set (n1 := INR (length x1)) in *. set (n2 := INR (length x2)) in *. set (B1 := Rsum (map Rabs x1)) in *. set (B2 := Rsum (map Rabs x2)) in *.
    split; [lra|]. split; [lra|]. cbn [total]. rewrite T1, T2. cbn [xadd fix64].
    assert (Hh0 : 0 < h) by (unfold h; lra). set (c := n1 + n2 - 2). assert (C0 : 0 <= c) by (unfold c; lra).
    assert (G1 : Rabs (s1 - Rsum x1) + Rabs (s2 - Rsum x2) <= c * (r1 * (B1 + B2) + 2 * h)).
    { assert ((n1 - 1) * (r1 * B1 + 2 * h) <= c * (r1 * B1 + 2 * h)) by (apply Rmult_le_compat_r; [assert (0 <= r1 * B1) by (apply Rmult_le_pos; lra); lra|unfold c; lra]).
      assert ((n2 - 1) * (r1 * B2 + 2 * h) <= c * (r1 * B2 + 2 * h)) by (apply Rmult_le_compat_r; [assert (0 <= r1 * B2) by (apply Rmult_le_pos; lra); lra|unfold c; lra]).
      assert (K : c * (r1 * B1 + 2 * h) + c * (r1 * B2 + 2 * h) - c * (2 * h) = c * (r1 * (B1 + B2) + 2 * h)) by ring.
      (* one of the two shares of 2 h *)
      assert (K1 : (n1 - 1) * (r1 * B1 + 2 * h) <= c * (r1 * B1) + (n1 - 1) * (2 * h)).
      { rewrite Rmult_plus_distr_l. apply Rplus_le_compat_r. apply Rmult_le_compat_r; [apply Rmult_le_pos; lra|unfold c; lra]. }
      assert (K2 : (n2 - 1) * (r1 * B2 + 2 * h) <= c * (r1 * B2) + (n2 - 1) * (2 * h)).
      { rewrite Rmult_plus_distr_l. apply Rplus_le_compat_r. apply Rmult_le_compat_r; [apply Rmult_le_pos; lra|unfold c; lra]. }
      replace (c * (r1 * (B1 + B2) + 2 * h)) with (c * (r1 * B1) + c * (r1 * B2) + ((n1 - 1) * (2 * h) + (n2 - 1) * (2 * h))) by (unfold c; ring). lra. }
    assert (S1 : Rabs (Rsum x1) <= B1). { unfold B1. clear. induction x1 as [|x l IH]; [unfold Rsum; cbn; rewrite Rabs_R0; lra|]. cbn [map]. rewrite !Rsum_cons. pose proof (Rabs_triang x (Rsum l)). lra. }
    assert (S2 : Rabs (Rsum x2) <= B2). { unfold B2. clear. induction x2 as [|x l IH]; [unfold Rsum; cbn; rewrite Rabs_R0; lra|]. cbn [map]. rewrite !Rsum_cons. pose proof (Rabs_triang x (Rsum l)). lra. }
    assert (Cr : c * r1 <= / 1000). { apply Rle_trans with (1099511627776 * r1); [apply Rmult_le_compat_r; unfold c; lra|]. unfold r1, u. lra. }
    assert (G2 : c * (r1 * (B1 + B2) + 2 * h) <= / 1000 * (B1 + B2) + c * (2 * h)).
    { replace (c * (r1 * (B1 + B2) + 2 * h)) with (c * r1 * (B1 + B2) + c * (2 * h)) by ring. apply Rplus_le_compat_r. apply Rmult_le_compat_r; lra. }
    assert (Ch : c * (2 * h) <= 1099511627776 * (2 * h)) by (apply Rmult_le_compat_r; unfold c; lra).
    assert (G3 : Rabs (s1 + s2) <= (B1 + B2) * 1.001 + c * (2 * h)).
    { replace (s1 + s2) with ((s1 - Rsum x1) + (s2 - Rsum x2) + (Rsum x1 + Rsum x2)) by ring.
      pose proof (Rabs_triang ((s1 - Rsum x1) + (s2 - Rsum x2)) (Rsum x1 + Rsum x2)). pose proof (Rabs_triang (s1 - Rsum x1) (s2 - Rsum x2)). pose proof (Rabs_triang (Rsum x1) (Rsum x2)). lra. }
    rewrite fl_fin by (unfold big; unfold h in *; lra). eexists. split; [reflexivity|].
    pose proof (rnd_err (s1 + s2)) as Er.
    assert (G4 : Rabs (s1 + s2) * u <= r1 * (B1 + B2) + h).
    { apply Rle_trans with (((B1 + B2) * 1.001 + c * (2 * h)) * u); [apply Rmult_le_compat_r; [unfold u; lra|exact G3]|].
      assert (c * (2 * h) * u <= h). { apply Rle_trans with (1099511627776 * (2 * h) * u); [apply Rmult_le_compat_r; [unfold u; lra|exact Ch]|unfold u, h; lra]. }
      assert ((B1 + B2) * 1.001 * u <= r1 * (B1 + B2)). { unfold r1. assert (0 <= (B1 + B2) * u) by (apply Rmult_le_pos; [lra|unfold u; lra]). lra. }
      rewrite Rmult_plus_distr_r. lra. }
    replace (rnd (s1 + s2) - (Rsum x1 + Rsum x2)) with ((rnd (s1 + s2) - (s1 + s2)) + ((s1 - Rsum x1) + (s2 - Rsum x2))) by ring.
    pose proof (Rabs_triang (rnd (s1 + s2) - (s1 + s2)) ((s1 - Rsum x1) + (s2 - Rsum x2))). pose proof (Rabs_triang (s1 - Rsum x1) (s2 - Rsum x2)).
    replace ((n1 + n2 - 1) * (r1 * (B1 + B2) + 2 * h)) with (c * (r1 * (B1 + B2) + 2 * h) + (r1 * (B1 + B2) + 2 * h)) by (unfold c; ring). lra.
Qed.
Lemma sum_abs (L : libm) xs : sums_in_some_order L -> xs <> [] -> (forall x, In x xs -> Rabs x <= 1000) -> INR (length xs) <= 1099511627776 ->
  exists s, l_sum L (map Fin xs) = Fin s /\ Rabs (s - Rsum xs) <= INR (length xs) * (r1 * Rsum (map Rabs xs) + 2 * h).
Proof.
  intros (_ & HS) Hne Hx Hn. destruct (HS (map Fin xs)) as (t & P & E); [destruct xs; [congruence|discriminate]|].
  apply Permutation_map_inv in P. destruct P as (xs' & El & P). rewrite E.
  assert (Len : length xs' = length xs) by (symmetry; apply Permutation_length; exact P).
  destruct (total_abs t xs' El) as (O & M & s & T & N).
  - intros x Hi. apply Hx. eapply Permutation_in; [apply Permutation_sym; exact P|exact Hi].
  - rewrite Len. exact Hn.
  - exists s. split; [exact T|]. rewrite Len in *. rewrite (Rsum_perm xs xs' P). rewrite (Rsum_perm (map Rabs xs) (map Rabs xs') (Permutation_map Rabs P)).
    pose proof (rsum_abs_nonneg xs') as Q. pose proof r1_val as [R0 _]. assert (0 <= r1 * Rsum (map Rabs xs')) by (apply Rmult_le_pos; lra).
    eapply Rle_trans; [exact N|]. apply Rmult_le_compat_r; [unfold h; lra|lra].
Qed.

Section Near.
  Context (L : libm) (j : Z) (d : nat) (W : usual_width j d) (HS : sums_in_some_order L) (HL : log_accurate L).
  #[local] Instance FI8 : Num xr := F64 L.
  Let w := widthR j d.
  Let Wb : 1 / 10000 <= w <= 10 := W_bounds j d W.
  (** mc need not be the double of a multiple of the bin width *)
  Definition close (kc : Z) (mc : R) : Prop := Rabs (mc - IZR kc * w) <= / 100000000000000.
  Lemma diff_close K kc mc : moderate j d K -> moderate j d kc -> (kc <= K)%Z -> close kc mc -> exists x,
    nsub (Fin (decimal j d K)) (Fin mc) = Fin x /\ Rabs (x - IZR (K - kc) * w) <= 402 * u.
  Proof.
    intros H H0 HK Hc. pose proof (dec_err j d K) as E. fold w in E. unfold moderate in H, H0. fold w in H, H0. unfold close in Hc.
    assert (B : Rabs (IZR K * w) * u <= 100 * u) by (apply Rmult_le_compat_r; [unfold u; lra|exact H]).
    apply Rabs_le_inv in E, Hc, H, H0. pose proof u_val as U. unfold FI8. unfold h in *.
    rewrite f_sub by (unfold big; apply Rabs_le; lra).
    set (D := decimal j d K - mc) in *.
    pose proof (rnd_err_le D 201 ltac:(unfold D; apply Rabs_le; lra)) as R. apply Rabs_le_inv in R. unfold h in R.
    eexists. split; [reflexivity|]. rewrite minus_IZR. unfold D in *. apply Rabs_le. unfold u in *. lra.
  Qed.
  Lemma sums_close xs ys c : Forall2 (fun x y => Rabs (x - y) <= c) xs ys -> (forall y, In y ys -> 0 <= y) ->
    Rabs (Rsum xs - Rsum ys) <= INR (length xs) * c /\ Rsum (map Rabs xs) <= Rsum ys + INR (length xs) * c.
  Proof.
    intros F. induction F as [|x y xs ys H F IH]; intros Hy; [unfold Rsum; cbn; rewrite Rminus_0_r, Rabs_R0; lra|].
    destruct (IH (fun z Hz => Hy z (or_intror Hz))) as [A1 A2]. cbn [map length]. rewrite !Rsum_cons, S_INR.
    replace (x + Rsum xs - (y + Rsum ys)) with ((x - y) + (Rsum xs - Rsum ys)) by ring. pose proof (Rabs_triang (x - y) (Rsum xs - Rsum ys)).
    pose proof (Hy y (or_introl eq_refl)) as Y0. pose proof (Rabs_triang (x - y) y) as T. replace (x - y + y) with x in T by ring. rewrite (Rabs_pos_eq y Y0) in T. split; lra.
  Qed.
  (** the mean of doubles that differ by little from non-negative numbers *)
  Lemma mean_close xs ys : Forall2 (fun x y => Rabs (x - y) <= 402 * u) xs ys -> (forall y, In y ys -> 0 <= y <= 200) -> w <= Rsum ys -> INR (length xs) <= w * 1000000000 -> xs <> [] ->
    exists a, nmean (map Fin xs) = Fin a /\ near (INR (length xs) * (404 * r1 / w + 1.03 * r1) + r1) a (Rsum ys / INR (length ys)).
  Proof.
    intros F Hy Sw Hn Hne. pose proof r1_val as [R0 R1]. pose proof (w_inv j d W) as Wi. fold w in Wi.
    assert (Len : length ys = length xs) by (clear - F; induction F; cbn; congruence).
    destruct (sums_close xs ys _ F (fun y H => proj1 (Hy y H))) as [A1 A2].
    assert (Hx : forall x, In x xs -> Rabs x <= 1000).
    { clear - F Hy. induction F as [|x y xs ys H F IH]; [intros x []|]. intros z [<-|Hz]; [|apply IH; [intros; apply Hy; right; assumption|exact Hz]].
      pose proof (Hy y (or_introl eq_refl)). pose proof (Rabs_triang (x - y) y) as T. replace (x - y + y) with x in T by ring. rewrite (Rabs_pos_eq y) in T by lra. unfold u in *. lra. }
    assert (N40 : INR (length xs) <= 1099511627776) by lra.
    destruct (sum_abs L xs HS Hne Hx N40) as (s & Es & A3).
    assert (Pn : 1 <= INR (length xs)) by (change 1 with (INR 1); apply le_INR; destruct xs; [congruence|cbn; lia]).
    assert (Su : Rsum ys <= 200 * INR (length ys)).
    { clear - Hy. induction ys as [|y ys IH]; [unfold Rsum; cbn; lra|]. rewrite Rsum_cons. cbn [length]. rewrite S_INR. pose proof (Hy y (or_introl eq_refl)). specialize (IH (fun z Hz => Hy z (or_intror Hz))). lra. }
    rewrite Len in Su. set (n := INR (length xs)) in *. set (Y := Rsum ys) in *.
    assert (Gw : n / w <= 1000000000). { apply Rmult_le_reg_r with w; [lra|]. unfold Rdiv. rewrite Rmult_assoc, Rinv_l by lra. lra. }
    assert (Gn : 0 <= n / w) by (unfold Rdiv; apply Rmult_le_pos; lra).
    assert (Yw : n <= n / w * Y). { unfold Rdiv. apply Rle_trans with (n * / w * w); [right; field; lra|]. apply Rmult_le_compat_l; [exact Gn|exact Sw]. }
    assert (Er : Rabs (s - Y) <= (n * (404 * u / w) + 1.001 * (n * r1)) * Y).
    { replace (s - Y) with ((s - Rsum xs) + (Rsum xs - Y)) by ring. pose proof (Rabs_triang (s - Rsum xs) (Rsum xs - Y)) as T.
      assert (B1 : r1 * Rsum (map Rabs xs) <= r1 * (1.001 * Y)).
      { apply Rmult_le_compat_l; [lra|]. assert (n * (402 * u) <= n / w * Y * (402 * u)) by (apply Rmult_le_compat_r; [unfold u; lra|exact Yw]).
        assert (n / w * Y * (402 * u) <= 1000000000 * Y * (402 * u)) by (apply Rmult_le_compat_r; [unfold u; lra|apply Rmult_le_compat_r; lra]). unfold u in *. lra. }
      assert (B2 : n * (r1 * Rsum (map Rabs xs) + 2 * h) <= n * (r1 * (1.001 * Y)) + n * (2 * h)) by (rewrite <- Rmult_plus_distr_l; apply Rmult_le_compat_l; lra).
      assert (B3 : n * (2 * h) <= n / w * Y * (2 * h)) by (apply Rmult_le_compat_r; [unfold h; lra|exact Yw]).
      assert (B4 : n * (402 * u) <= n / w * Y * (402 * u)) by (apply Rmult_le_compat_r; [unfold u; lra|exact Yw]).
      assert (B5 : n / w * Y * (2 * h) <= n / w * Y * (2 * u)) by (apply Rmult_le_compat_l; [apply Rmult_le_pos; lra|unfold h, u; lra]).
      replace ((n * (404 * u / w) + 1.001 * (n * r1)) * Y) with (n / w * Y * (402 * u) + n / w * Y * (2 * u) + n * (r1 * (1.001 * Y))) by (field; lra). lra. }
    set (g := n * (404 * u / w) + 1.001 * (n * r1)) in *.
    assert (G0 : 0 <= g). { unfold g. replace (n * (404 * u / w)) with (n / w * (404 * u)) by (field; lra). assert (0 <= n / w * (404 * u)) by (apply Rmult_le_pos; [lra|unfold u; lra]). assert (0 <= n * r1) by (apply Rmult_le_pos; lra). lra. }
    assert (G1 : g <= / 1000). { unfold g. replace (n * (404 * u / w)) with (n / w * (404 * u)) by (field; lra). assert (n / w * (404 * u) <= 1000000000 * (404 * u)) by (apply Rmult_le_compat_r; [unfold u; lra|lra]). assert (n * r1 <= 10000000000 * r1) by (apply Rmult_le_compat_r; lra). unfold r1, u in *. lra. }
    assert (Y0 : 0 <= Y) by lra.
    pose proof (near_of_err g s Y Y0 ltac:(lra) Er) as Ns.
    assert (Bs : 0.98 * Y <= s <= 1.02 * Y). { assert (g * Y <= / 1000 * Y) by (apply Rmult_le_compat_r; lra). apply Rabs_le_inv in Er. lra. }
    unfold nmean. rewrite map_length. unfold ofnat, FI8. rewrite f_ofZ by (rewrite Z.abs_eq by lia; apply le_IZR; rewrite <- INR_IZR_INZ; fold n; change (2 ^ 53)%Z with 9007199254740992%Z; lra).
    rewrite <- INR_IZR_INZ. fold n. change (@nsum xr (F64 L) (map Fin xs)) with (l_sum L (map Fin xs)). rewrite Es.
    assert (Q : 0 < / n <= 1) by (split; [apply Rinv_0_lt_compat; lra|rewrite <- Rinv_1; apply Rinv_le_contravar; lra]).
    assert (Q2 : / 1099511627776 <= / n) by (apply Rinv_le_contravar; lra).
    assert (S0 : 0 < s) by lra.
    assert (Sn : s * / 1099511627776 <= s / n <= s) by (unfold Rdiv; split; [apply Rmult_le_compat_l; lra|rewrite <- (Rmult_1_r s) at 2; apply Rmult_le_compat_l; lra]).
    rewrite f_div.
    2: lra. 2:{ rewrite Rabs_pos_eq by (unfold Rdiv; apply Rmult_le_pos; lra). unfold big. lra. }
    eexists. split; [reflexivity|]. rewrite Len. fold n.
    apply near_le with (r1 + (g * 1.02 + 0)).
    - unfold Rdiv. apply Rmult_le_pos; lra.
    - unfold g, r1. assert (0 <= n * u) by (apply Rmult_le_pos; [lra|unfold u; lra]). replace (n * (404 * u / w)) with (n * u * (404 / w)) by (field; lra). replace (n * (404 * (u * 1.02) / w + 1.03 * (u * 1.02)) + u * 1.02) with (n * u * (404 / w) * 1.02 + n * u * 1.03 * 1.02 + u * 1.02) by (field; lra). lra.
    - eapply near_trans; [apply near_rnd; unfold h; lra|]. apply near_div; [lra|lra|exact Ns|apply near_refl; lra].
  Qed.
  Lemma collect_close (f : xr -> xr) (g : Z -> R) (P : R -> R -> Prop) ks : (forall k, In k ks -> exists x, f (Fin (decimal j d k)) = Fin x /\ P x (g k)) ->
    exists xs, map f (at_index j d ks) = map Fin xs /\ Forall2 P xs (map g ks).
  Proof.
    induction ks as [|k ks IH]; intros H; [exists []; split; [reflexivity|constructor]|].
    destruct (H k (or_introl eq_refl)) as (x & E & N). destruct IH as (xs & E2 & N2); [intros; apply H; right; assumption|].
    exists (x :: xs). unfold at_index in *. cbn [map]. rewrite E, E2. split; [reflexivity|constructor; assumption].
  Qed.
  Lemma mle_close ks kc mc : (forall k, In k ks -> moderate j d k /\ (kc <= k)%Z) -> moderate j d kc -> close kc mc -> (exists k, In k ks /\ (kc < k)%Z) ->
    INR (length ks) <= w * 1000000000 ->
    exists b, mle_estimator (at_index j d ks) (Fin mc) (width j d) None = Ok (Fin b) /\
      Rabs (b - exact_classic w (mean_excess w kc ks)) <= exact_classic w (mean_excess w kc ks) * ((INR (length ks) * (1 + 220 / w) + 120 / w + 10) / 4503599627370496).
  Proof.
    intros Hk Hc Hmc (k1 & Hi1 & Hk1) Hn. pose proof r1_val as [R0 R1]. pose proof (w_inv j d W) as Wi. fold w in Wi.
    assert (Hn1 : 1 <= INR (length ks)) by (change 1 with (INR 1); apply le_INR; destruct ks; [destruct Hi1|cbn; lia]).
    destruct (collect_close (fun m => nsub m (Fin mc)) (fun k => IZR (k - kc) * w) (fun x y => Rabs (x - y) <= 402 * u) ks) as (xs & Ex & Fx).
    { intros k Hi. destruct (Hk k Hi) as (M & LE). exact (diff_close k kc mc M Hc LE Hmc). }
    assert (Lx : length xs = length ks) by (transitivity (length (map (fun k => IZR (k - kc) * w) ks)); [clear - Fx; induction Fx; cbn; congruence|apply map_length]).
    set (ys := map (fun k => IZR (k - kc) * w) ks) in *.
    assert (Ly : length ys = length ks) by apply map_length.
    assert (Y0 : forall k, In k ks -> 0 <= IZR (k - kc) * w <= 200) by (intros k Hi; destruct (Hk k Hi); apply (diff_range j d W); assumption).
    assert (Sw : w <= Rsum ys).
    { apply sum_ge; [intros k Hi; apply Y0, Hi|]. exists k1. split; [exact Hi1|]. rewrite <- (Rmult_1_l w) at 1. apply Rmult_le_compat_r; [lra|]. apply IZR_le. lia. }
    pose proof (sum_bounds (fun k => IZR (k - kc) * w) 0 200 ks Y0) as Su. fold ys in Su.
    destruct (mean_close xs ys Fx) as (a & Ea & Na); [|exact Sw|rewrite Lx; exact Hn|intros ->; cbn in Lx; destruct ks; [destruct Hi1|discriminate]|].
    { intros y Hy. unfold ys in Hy. apply in_map_iff in Hy. destruct Hy as (k & <- & Hi). apply Y0, Hi. }
    rewrite Lx, Ly in Na. set (n := INR (length ks)) in *.
    assert (EA : mean_excess w kc ks = Rsum ys / n) by reflexivity.
    assert (HA : w / n <= Rsum ys / n <= 201).
    { split; [unfold Rdiv; apply Rmult_le_compat_r; [left; apply Rinv_0_lt_compat; lra|lra]|]. apply Rmult_le_reg_r with n; [lra|]. unfold Rdiv. rewrite Rmult_assoc, Rinv_l by lra. lra. }
    assert (Gw : n / w <= 1000000000). { apply Rmult_le_reg_r with w; [lra|]. unfold Rdiv. rewrite Rmult_assoc, Rinv_l by lra. lra. }
    assert (Gn : 0 <= n / w) by (unfold Rdiv; apply Rmult_le_pos; lra).
    set (e := n * (404 * r1 / w + 1.03 * r1) + r1) in *.
    assert (EE0 : e = n / w * (404 * r1) + n * (1.03 * r1) + r1) by (unfold e; field; lra).
    assert (Ee : 0 <= e <= / 1000).
    { rewrite EE0. assert (0 <= n / w * (404 * r1)) by (apply Rmult_le_pos; lra). assert (0 <= n * (1.03 * r1)) by (apply Rmult_le_pos; lra).
      assert (n / w * (404 * r1) <= 1000000000 * (404 * r1)) by (apply Rmult_le_compat_r; lra). assert (n * (1.03 * r1) <= 10000000000 * (1.03 * r1)) by (apply Rmult_le_compat_r; lra). unfold r1, u in *. lra. }
    destruct (classic_near L j d W HL _ a _ n (proj1 Ee) ltac:(lra) (proj2 Ee) HA Na) as (b & Eb & Nb).
    exists b. split.
    - unfold mle_estimator, np_average. rewrite Ex, Ea. cbn [rbind].
      assert (WP : nltb zero (dec_val (width j d)) = true) by exact (width_positive L j d W). rewrite WP. unfold F64_est.FI8 in Eb. unfold FI8. rewrite Eb. reflexivity.
    - rewrite EA. fold w in Nb. fold (exact_classic w (Rsum ys / n)) in Nb.
      assert (P : 0 < w / n) by (apply Rdiv_lt_0_compat; lra).
      assert (Q : 0 < w / (Rsum ys / n)) by (apply Rdiv_lt_0_compat; lra).
      assert (T : 0 < exact_classic w (Rsum ys / n)).
      { unfold exact_classic. apply Rdiv_lt_0_compat; [apply Rdiv_lt_0_compat; [rewrite <- ln_1; apply ln_increasing; lra|lra]|rewrite <- ln_1; apply ln_increasing; lra]. }
      set (E := e + (216 / w + 17) * r1) in *.
      assert (I0 : 0 <= / w) by lra.
      assert (EE : E = (n / w * 404 + n * 1.03 + 216 * / w + 18) * r1) by (unfold E; rewrite EE0; field; lra).
      assert (E1 : E <= 1 / 100). { unfold E, Rdiv. assert (r1 * (/ w) <= r1 * 10000) by (apply Rmult_le_compat_l; lra). unfold r1, u in *. lra. }
      assert (E0 : 0 <= E). { unfold E, Rdiv. assert (0 <= r1 * / w) by (apply Rmult_le_pos; lra). lra. }
      eapply Rle_trans; [apply (err_of_near E); [lra|lra|exact Nb]|]. apply Rmult_le_compat_l; [lra|]. rewrite EE.
      replace ((n * (1 + 220 / w) + 120 / w + 10) / 4503599627370496) with ((n / w * 220 + n + 120 * / w + 10) * (2 * u)) by (unfold u; field; lra).
      unfold r1. assert (0 <= n / w * u) by (apply Rmult_le_pos; [lra|unfold u; lra]). assert (0 <= n * u) by (apply Rmult_le_pos; [lra|unfold u; lra]). assert (0 <= / w * u) by (apply Rmult_le_pos; [lra|unfold u; lra]). assert (0 < u) by (unfold u; lra). nra.
  Qed.
  Lemma utsu_leaf_close K kc mc : moderate j d K -> moderate j d kc -> (kc <= K)%Z -> close kc mc -> exists x,
    nadd (nsub (Fin (decimal j d K)) (Fin mc)) (ndiv (dec_val (width j d)) two) = Fin x /\
    near (804 * r1 / w + 3.2 * r1) x (IZR (K - kc) * w + w / 2) /\ (x = 0 \/ / 1000000000 <= x <= 1000).
  Proof.
    intros H H0 HK Hc. destruct (diff_close K kc mc H H0 HK Hc) as (x & -> & Ax). destruct (half_near L j d W) as (q & Eq & Nq & Bq). fold w in Nq, Bq. unfold F64_est.FI8 in Eq. unfold FI8. rewrite Eq.
    pose proof r1_val as [R0 R1]. pose proof (w_inv j d W) as Wi. fold w in Wi. pose proof (diff_range j d W K kc H H0 HK) as Dr. fold w in Dr.
    set (y := IZR (K - kc) * w) in *. pose proof (Rabs_le_inv _ _ Ax) as Ax'.
    assert (U4 : 402 * u <= / 1000000000) by (unfold u; lra).
    rewrite g_add by (unfold big; apply Rabs_le; lra).
    eexists. split; [reflexivity|].
    assert (Eq2 : Rabs (q - w / 2) <= w / 2 * (2 * r1 * 1.02)) by (apply err_of_near; [lra|unfold r1, u; lra|exact Nq]).
    assert (N : near (804 * r1 / w + 2.1 * r1) (x + q) (y + w / 2)).
    { apply near_le with ((804 * u / w + 2.04 * r1) * 1.02); [lra|unfold r1; replace (804 * u / w) with (804 * (u / w)) by (field; lra); replace (804 * (u * 1.02) / w) with (804 * (u / w) * 1.02) by (field; lra); unfold u; lra|].
      apply near_of_err; [lra| |].
      - assert (804 * u / w <= 804 * u * 10000) by (unfold Rdiv; apply Rmult_le_compat_l; [unfold u; lra|lra]). assert (0 <= 804 * u / w) by (unfold Rdiv; apply Rmult_le_pos; [unfold u; lra|lra]). unfold r1, u in *. lra.
      - replace (x + q - (y + w / 2)) with ((x - y) + (q - w / 2)) by ring. eapply Rle_trans; [apply Rabs_triang|].
        apply Rle_trans with ((804 * u / w + 2.04 * r1) * (w / 2)); [assert (X0 : (804 * u / w + 2.04 * r1) * (w / 2) = 402 * u + w / 2 * (2 * r1 * 1.02)) by (assert (X1 : 2.04 = 2 * 1.02) by lra; rewrite X1; field; lra); rewrite X0; lra|].
        apply Rmult_le_compat_l; [|lra]. assert (0 <= 804 * u / w) by (unfold Rdiv; apply Rmult_le_pos; [unfold u; lra|lra]). lra. }
    pose proof (near_rnd (x + q) ltac:(unfold h; lra)) as NR. split.
    - apply near_le with (r1 + (804 * r1 / w + 2.1 * r1)); [lra|lra|]. eapply near_trans; eassumption.
    - right. bnd NR BR (lra) (unfold r1, u; lra). lra.
  Qed.
  Lemma utsu_close ks kc mc : (forall k, In k ks -> moderate j d k /\ (kc <= k)%Z) -> moderate j d kc -> close kc mc -> ks <> [] ->
    (Z.of_nat (length ks) <= 2 ^ 40)%Z ->
    exists b, utsu_estimator (at_index j d ks) (Fin mc) (width j d) None = Ok (Fin b) /\
      Rabs (b - exact_utsu w (mean_excess w kc ks)) <= exact_utsu w (mean_excess w kc ks) * allowed_error w (length ks).
  Proof.
    intros Hk Hc Hmc Hne Hn. pose proof r1_val as [R0 R1]. pose proof (w_inv j d W) as Wi. fold w in Wi.
    assert (Hn2 : INR (length ks) <= 1099511627776) by (rewrite INR_IZR_INZ; apply IZR_le; exact Hn).
    assert (Hn1 : 1 <= INR (length ks)) by (change 1 with (INR 1); apply le_INR; destruct ks; [congruence|cbn; lia]).
    destruct (collect j d (fun m => nadd (nsub m (Fin mc)) (ndiv (dec_val (width j d)) two)) (fun k => IZR (k - kc) * w + w / 2) (804 * r1 / w + 3.2 * r1) (fun x => x = 0 \/ / 1000000000 <= x <= 1000) ks) as (xs & Ex & Fx & Px).
    { intros k Hi. destruct (Hk k Hi) as (M & LE). exact (utsu_leaf_close k kc mc M Hc LE Hmc). }
    assert (Lx : length xs = length ks) by (transitivity (length (map (fun k => IZR (k - kc) * w + w / 2) ks)); [clear - Fx; induction Fx; cbn; congruence|apply map_length]).
    set (ys := map (fun k => IZR (k - kc) * w + w / 2) ks) in *.
    assert (Ly : length ys = length ks) by apply map_length.
    assert (Y0 : forall k, In k ks -> w / 2 <= IZR (k - kc) * w + w / 2 <= 205) by (intros k Hi; destruct (Hk k Hi); pose proof (diff_range j d W k kc ltac:(assumption) Hc ltac:(assumption)) as Q; fold w in Q; lra).
    pose proof (sum_bounds (fun k => IZR (k - kc) * w + w / 2) (w / 2) 205 ks Y0) as Su. fold ys in Su.
    set (n := INR (length ks)) in *.
    assert (Sw : w / 2 <= n * (w / 2)) by (rewrite <- (Rmult_1_l (w / 2)) at 1; apply Rmult_le_compat_r; lra).
    set (eU := 804 * r1 / w + 3.2 * r1) in *.
    assert (EU : 0 <= eU <= / 1000000). { unfold eU. assert (804 * r1 / w <= 804 * r1 * 10000) by (unfold Rdiv; apply Rmult_le_compat_l; lra). assert (0 <= 804 * r1 / w) by (unfold Rdiv; apply Rmult_le_pos; lra). unfold r1, u in *. lra. }
    destruct (mean_near L j d W HS eU xs ys) as (a & Ea & Na); [lra|exact Fx| |lra|fold w; lra|exact Px|rewrite Lx; exact Hn2|].
    { intros y Hy. unfold ys in Hy. apply in_map_iff in Hy. destruct Hy as (k & <- & Hi). pose proof (Y0 k Hi). lra. }
    rewrite Lx, Ly in Na. fold n in Na.
    assert (EA : Rsum ys / n = mean_excess w kc ks + w / 2).
    { unfold mean_excess. fold n. assert (S : Rsum ys = Rsum (map (fun k => IZR (k - kc) * w) ks) + n * (w / 2)).
      { unfold ys, n. clear. induction ks as [|k ks IH]; [unfold Rsum; cbn; lra|]. cbn [map length]. rewrite !Rsum_cons, S_INR, IH. lra. }
      rewrite S. field. lra. }
    assert (HA : w / 2 <= Rsum ys / n <= 250).
    { split; apply Rmult_le_reg_r with n; try lra; replace (Rsum ys / n * n) with (Rsum ys) by (field; lra); lra. }
    set (e := eU + (n + 1) * r1) in *.
    assert (Ee : 0 <= e <= / 1000).
    { unfold e. split; [assert (0 <= (n + 1) * r1) by (apply Rmult_le_pos; lra); lra|]. assert ((n + 1) * r1 <= 1099511627777 * r1) by (apply Rmult_le_compat_r; lra). unfold r1, u in *. lra. }
    destruct (utsu_near L j d W HL e a _ (proj1 Ee) (proj2 Ee) HA Na) as (b & Eb & Nb).
    exists b. split.
    - unfold utsu_estimator, np_average. rewrite Ex. unfold FI8 in *. unfold F64_est.FI8 in Ea, Eb. rewrite Ea. cbn [rbind]. rewrite Eb. reflexivity.
    - unfold exact_utsu. rewrite <- EA.
      assert (T : 0 < 1 / (Rsum ys / n) / ln 10). { apply Rdiv_lt_0_compat; [apply Rdiv_lt_0_compat; lra|rewrite <- ln_1; apply ln_increasing; lra]. }
      set (E := e + 6 * r1) in *.
      assert (EE : E = (n + 804 * / w + 10.2) * r1) by (unfold E, e, eU; assert (X1 : 3.2 = 16 / 5) by lra; assert (X2 : 10.2 = 51 / 5) by lra; rewrite X1, X2; field; lra).
      assert (E1 : E <= 1 / 100) by (unfold E; unfold r1, u in *; lra).
      assert (E0 : 0 <= E) by (unfold E; lra).
      eapply Rle_trans; [apply (err_of_near E); [lra|lra|exact Nb]|]. apply Rmult_le_compat_l; [lra|]. rewrite EE. unfold allowed_error. fold n.
      replace ((n + 620 / w + 20) / 4503599627370496) with ((n + 620 * / w + 20) * (2 * u)) by (unfold u; field; lra).
      rewrite Rmult_assoc. assert (X : r1 * 1.02 <= 1.05 * u) by (unfold r1, u; lra).
      apply Rle_trans with ((n + 804 * / w + 10.2) * (1.05 * u)); [apply Rmult_le_compat_l; lra|].
      assert (0 <= / w * u) by (apply Rmult_le_pos; [lra|unfold u; lra]). assert (0 <= n * u) by (apply Rmult_le_pos; [lra|unfold u; lra]). unfold u in *. lra.
  Qed.
End Near.
