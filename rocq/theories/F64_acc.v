(** * Relative accuracy of sums, means and logarithms in double precision *)
From Coq Require Import ZArith List Bool Reals Lia Lra Psatz Permutation.
From Flocq Require Import Core Relative.
From Verif Require Import Base Num XR RList Binning_model BValue_model Openquake_model F64 Spec_F64 F64_proofs F64_test F64_select F64_fmd.
Import ListNotations.
Open Scope R_scope.

(** [x] is [y] up to a factor between exp (-e) and exp e *)
Definition near (e x y : R) : Prop := y * exp (- e) <= x <= y * exp e.
Lemma exp_le x y : x <= y -> exp x <= exp y.
Proof. intros [H|H]; [left; apply exp_increasing, H|right; rewrite H; reflexivity]. Qed.
Lemma near_le e e' x y : 0 <= y -> e <= e' -> near e x y -> near e' x y.
Proof.
  intros Hy He (A & B). split.
  - eapply Rle_trans; [|exact A]. apply Rmult_le_compat_l; [exact Hy|]. apply exp_le. lra.
  - eapply Rle_trans; [exact B|]. apply Rmult_le_compat_l; [exact Hy|]. apply exp_le. lra.
Qed.
Lemma near_refl e x : 0 <= x -> 0 <= e -> near e x x.
Proof.
  intros Hx He. apply near_le with 0; [exact Hx|exact He|]. unfold near. rewrite Ropp_0, exp_0. lra.
Qed.
Lemma near_nonneg e x y : 0 <= y -> near e x y -> 0 <= x.
Proof. intros Hy (A & _). eapply Rle_trans; [|exact A]. apply Rmult_le_pos; [exact Hy|left; apply exp_pos]. Qed.
Lemma near_pos e x y : 0 < y -> near e x y -> 0 < x.
Proof. intros Hy (A & _). eapply Rlt_le_trans; [|exact A]. apply Rmult_lt_0_compat; [exact Hy|apply exp_pos]. Qed.
Lemma near_trans e f x y z : near e x y -> near f y z -> near (e + f) x z.
Proof.
  intros (A & B) (C & D). split.
  - rewrite Ropp_plus_distr, exp_plus. eapply Rle_trans; [|exact A].
    replace (z * (exp (- e) * exp (- f))) with (z * exp (- f) * exp (- e)) by ring. apply Rmult_le_compat_r; [left; apply exp_pos|exact C].
  - rewrite exp_plus. eapply Rle_trans; [exact B|].
    replace (z * (exp e * exp f)) with (z * exp f * exp e) by ring. apply Rmult_le_compat_r; [left; apply exp_pos|exact D].
Qed.
Lemma near_mult e f x y x' y' : 0 <= y -> 0 <= y' -> near e x y -> near f x' y' -> near (e + f) (x * x') (y * y').
Proof.
  intros Hy Hy' N N'. pose proof (near_nonneg _ _ _ Hy N) as Hx. pose proof (near_nonneg _ _ _ Hy' N') as Hx'.
  destruct N as (A & B), N' as (C & D). split.
  - rewrite Ropp_plus_distr, exp_plus. replace (y * y' * (exp (- e) * exp (- f))) with ((y * exp (- e)) * (y' * exp (- f))) by ring.
    apply Rmult_le_compat; try assumption; apply Rmult_le_pos; try assumption; left; apply exp_pos.
  - rewrite exp_plus. replace (y * y' * (exp e * exp f)) with ((y * exp e) * (y' * exp f)) by ring.
    apply Rmult_le_compat; assumption.
Qed.
Lemma near_inv e x y : 0 < y -> near e x y -> near e (/ x) (/ y).
Proof.
  intros Hy N. pose proof (near_pos _ _ _ Hy N) as Hx. destruct N as (A & B). pose proof (exp_pos e). pose proof (exp_pos (- e)).
  assert (E : exp e * exp (- e) = 1) by (rewrite <- exp_plus, Rplus_opp_r, exp_0; reflexivity). split.
  - apply Rmult_le_reg_r with x; [exact Hx|]. rewrite Rinv_l by lra. apply Rle_trans with (/ y * exp (- e) * (y * exp e)).
    + apply Rmult_le_compat_l; [|exact B]. apply Rmult_le_pos; [left; apply Rinv_0_lt_compat; exact Hy|lra].
    + right. replace (/ y * exp (- e) * (y * exp e)) with (/ y * y * (exp e * exp (- e))) by ring. rewrite E, Rinv_l by lra. ring.
  - apply Rmult_le_reg_r with x; [exact Hx|]. rewrite Rinv_l by lra. apply Rle_trans with (/ y * exp e * (y * exp (- e))).
    + right. replace (/ y * exp e * (y * exp (- e))) with (/ y * y * (exp e * exp (- e))) by ring. rewrite E, Rinv_l by lra. ring.
    + apply Rmult_le_compat_l; [|exact A]. apply Rmult_le_pos; [left; apply Rinv_0_lt_compat; exact Hy|lra].
Qed.
Lemma near_div e f x y x' y' : 0 <= y -> 0 < y' -> near e x y -> near f x' y' -> near (e + f) (x / x') (y / y').
Proof. intros Hy Hy' N N'. apply near_mult; [exact Hy|left; apply Rinv_0_lt_compat; exact Hy'|exact N|apply near_inv; assumption]. Qed.
Lemma near_plus e x y x' y' : near e x y -> near e x' y' -> near e (x + x') (y + y').
Proof. intros (A & B) (C & D). unfold near. rewrite !Rmult_plus_distr_r. lra. Qed.

(** from and to relative errors *)
Lemma exp_neg_ub e : 0 <= e -> exp (- e) <= / (1 + e).
Proof. intros He. rewrite exp_Ropp. apply Rinv_le_contravar; [lra|]. apply exp_ineq1_le. Qed.
Lemma exp_ub e : 0 <= e <= 1 / 2 -> exp e <= 1 + e + 2 * e * e.
Proof.
  intros He. pose proof (exp_ineq1_le (- e)) as A. pose proof (exp_pos e) as P.
  assert (E : exp e * exp (- e) = 1) by (rewrite <- exp_plus, Rplus_opp_r, exp_0; reflexivity).
  assert (B : exp e * (1 - e) <= 1) by (rewrite <- E; apply Rmult_le_compat_l; lra).
  apply Rmult_le_reg_r with (1 - e); [lra|]. eapply Rle_trans; [exact B|]. 
  replace ((1 + e + 2 * e * e) * (1 - e)) with (1 + e * e * (1 - 2 * e)) by ring.
  assert (0 <= e * e * (1 - 2 * e)); [|lra]. apply Rmult_le_pos; [apply Rmult_le_pos|]; lra.
Qed.
Lemma near_of_err e x y : 0 <= y -> 0 <= e <= 1 / 100 -> Rabs (x - y) <= e * y -> near (e * 1.02) x y.
Proof.
  intros Hy He H. apply Rabs_le_inv in H. split.
  - assert (B : exp (- (e * 1.02)) <= 1 - e).
    { eapply Rle_trans; [apply exp_neg_ub; lra|]. apply Rmult_le_reg_r with (1 + e * 1.02); [lra|]. rewrite Rinv_l by lra.
      replace ((1 - e) * (1 + e * 1.02)) with (1 + e * (0.02 - 1.02 * e)) by lra. assert (0 <= e * (0.02 - 1.02 * e)) by (apply Rmult_le_pos; lra). lra. }
    apply Rle_trans with (y * (1 - e)); [apply Rmult_le_compat_l; lra|lra].
  - assert (B : 1 + e <= exp (e * 1.02)) by (eapply Rle_trans; [|apply exp_ineq1_le]; lra).
    apply Rle_trans with (y * (1 + e)); [lra|apply Rmult_le_compat_l; lra].
Qed.
Lemma err_of_near e x y : 0 <= y -> 0 <= e <= 1 / 100 -> near e x y -> Rabs (x - y) <= y * (e * 1.02).
Proof.
  intros Hy He (A & B). apply Rabs_le. pose proof (exp_ineq1_le (- e)) as C. pose proof (exp_ub e ltac:(lra)) as D.
  assert (E : 2 * e * e <= 0.02 * e) by (assert (e * e <= e * (1/100)) by (apply Rmult_le_compat_l; lra); lra). split.
  - assert (y * (1 - e) <= x) by (eapply Rle_trans; [|exact A]; apply Rmult_le_compat_l; lra).
    assert (0 <= y * e) by (apply Rmult_le_pos; lra). lra.
  - assert (x <= y * (1 + e * 1.02)) by (eapply Rle_trans; [exact B|]; apply Rmult_le_compat_l; lra). lra.
Qed.

(** one rounding *)
Definition r1 : R := u * 1.02.
Lemma r1_val : 0 < r1 /\ r1 * 9007199254740992 = 1.02. Proof. unfold r1, u. lra. Qed.
Lemma near_rnd x : h <= x -> near r1 (rnd x) x.
Proof.
  unfold h. intros H. apply near_of_err; [lra|unfold u; lra|].
  pose proof (relative_error_N_FLT radix2 (-1074) 53 ltac:(lia) (fun z => negb (Z.even z)) x) as E.
  assert (B : bpow radix2 (-1074 + 53 - 1) <= Rabs x).
  { rewrite Rabs_pos_eq by lra. eapply Rle_trans; [apply (bpow_le radix2 _ (-100)); lia|]. cbn. lra. }
  specialize (E B). rewrite (Rabs_pos_eq x) in E by lra. eapply Rle_trans; [exact E|]. right.
  replace (bpow radix2 (- (53) + 1)) with (/ 4503599627370496) by (cbn; lra). unfold u. field.
Qed.
Lemma near_rnd0 x : x = 0 \/ h <= x -> near r1 (rnd x) x.
Proof. pose proof r1_val. intros [->|H']; [rewrite rnd_0; apply near_refl; lra|apply near_rnd, H']. Qed.

(** logarithms *)
Lemma ln_tangent x z : 0 < x -> 0 < z -> ln x <= ln z + (x - z) / z.
Proof.
  intros Hx Hz. assert (Q : 0 < x / z) by (apply Rdiv_lt_0_compat; assumption).
  assert (E : ln (x / z) <= x / z - 1).
  { pose proof (exp_ineq1_le (ln (x / z))) as E. rewrite exp_ln in E by exact Q. lra. }
  unfold Rdiv in E at 1. rewrite ln_mult, ln_Rinv in E by (try apply Rinv_0_lt_compat; assumption).
  replace ((x - z) / z) with (x / z - 1) by (field; lra). lra.
Qed.
Lemma ln1p_scale c q : 1 <= c -> 0 <= q -> ln (1 + c * q) <= c * ln (1 + q).
Proof.
  intros Hc Hq. assert (Q : 0 <= c * q) by (apply Rmult_le_pos; lra).
  pose proof (ln_tangent (1 + c * q) (1 + q) ltac:(lra) ltac:(lra)) as A. pose proof (ln_tangent 1 (1 + q) ltac:(lra) ltac:(lra)) as B.
  rewrite ln_1 in B. replace ((1 + c * q - (1 + q)) / (1 + q)) with ((c - 1) * (q / (1 + q))) in A by (field; lra).
  replace ((1 - (1 + q)) / (1 + q)) with (- (q / (1 + q))) in B by (field; lra).
  assert ((c - 1) * (q / (1 + q)) <= (c - 1) * ln (1 + q)) by (apply Rmult_le_compat_l; lra). lra.
Qed.
Lemma ln_mono x y : 0 < x -> x <= y -> ln x <= ln y.
Proof. intros Hx [H|H]; [left; apply ln_increasing; assumption|right; rewrite H; reflexivity]. Qed.
Lemma near_ln1p e q q' : 0 <= e -> 0 <= q' -> near e q q' -> near e (ln (1 + q)) (ln (1 + q')).
Proof.
  intros He Hq N. pose proof (near_nonneg _ _ _ Hq N) as Hq0.
  assert (G : forall a b, 0 <= a -> 0 <= b -> b <= a * exp e -> ln (1 + b) <= ln (1 + a) * exp e).
  { intros a b Ha Hb H. assert (1 <= exp e) by (pose proof (exp_ineq1_le e); lra).
    eapply Rle_trans; [apply (ln_mono _ (1 + exp e * a)); lra|]. eapply Rle_trans; [apply ln1p_scale; lra|]. lra. }
  destruct N as (A & B). split; [|apply G; assumption].
  apply Rmult_le_reg_r with (exp e); [apply exp_pos|]. rewrite Rmult_assoc, <- exp_plus, Rplus_opp_l, exp_0, Rmult_1_r.
  apply G; [exact Hq0|exact Hq|]. apply Rmult_le_reg_r with (exp (- e)); [apply exp_pos|]. rewrite Rmult_assoc, <- exp_plus, Rplus_opp_r, exp_0, Rmult_1_r. exact A.
Qed.
(** the logarithm of a slightly wrong argument above 1 *)
Lemma near_ln e p q : 0 <= e -> 0 < q -> e * (1 + / q) <= 1 / 100 -> near e p (1 + q) -> near (e * (1 + / q) * 1.02) (ln p) (ln (1 + q)).
Proof.
  intros He Hq Hs N. assert (P : 0 < p) by (apply (near_pos e p (1 + q)); [lra|exact N]). destruct N as (A & B).
  assert (Lq : q / (1 + q) <= ln (1 + q)).
  { pose proof (ln_tangent 1 (1 + q) ltac:(lra) ltac:(lra)) as T. rewrite ln_1 in T. replace ((1 - (1 + q)) / (1 + q)) with (- (q / (1 + q))) in T by (field; lra). lra. }
  assert (Q0 : 0 < / q) by (apply Rinv_0_lt_compat; exact Hq).
  assert (E0 : 0 <= e * (1 + / q)) by (apply Rmult_le_pos; lra).
  apply near_of_err.
  - eapply Rle_trans; [|exact Lq]. apply Rlt_le, Rdiv_lt_0_compat; lra.
  - lra.
  - assert (D : Rabs (ln p - ln (1 + q)) <= e).
    { apply Rabs_le. split.
      - assert (ln ((1 + q) * exp (- e)) <= ln p) by (apply ln_mono; [apply Rmult_lt_0_compat; [lra|apply exp_pos]|exact A]).
        rewrite ln_mult, ln_exp in H by (lra || apply exp_pos). lra.
      - assert (ln p <= ln ((1 + q) * exp e)) by (apply ln_mono; [exact P|exact B]).
        rewrite ln_mult, ln_exp in H by (lra || apply exp_pos). lra. }
    eapply Rle_trans; [exact D|]. apply Rle_trans with (e * (1 + / q) * (q / (1 + q))); [right; field; lra|].
    apply Rmult_le_compat_l; assumption.
Qed.

(** ** sums in any order *)
Lemma exp_big e : 0 <= e <= 1 / 2 -> exp e <= 2.
Proof. intros He. eapply Rle_trans; [apply exp_ub, He|]. assert (e * e <= 1/2 * (1/2)) by (apply Rmult_le_compat; lra). lra. Qed.
Lemma total_near t xs : leaves t = map Fin xs -> (forall x, In x xs -> x = 0 \/ / 1000000000 <= x <= 1000) -> INR (length xs) <= 1099511627776 ->
  exists s, total t = Fin s /\ near (INR (length xs) * r1) s (Rsum xs).
Proof.
  pose proof r1_val as [R0 R1].
  assert (G : forall t xs, leaves t = map Fin xs -> (forall x, In x xs -> x = 0 \/ / 1000000000 <= x <= 1000) -> INR (length xs) <= 1099511627776 ->
    exists s, total t = Fin s /\ near ((INR (length xs) - 1) * r1) s (Rsum xs) /\ (Rsum xs = 0 \/ / 1000000000 <= Rsum xs) /\ Rsum xs <= 1000 * INR (length xs) /\ 1 <= INR (length xs)).
  { clear t xs. induction t as [x|t1 IH1 t2 IH2]; intros xs E Hx Hn.
    - destruct xs as [|y [|]]; try discriminate. cbn [leaves map] in E. injection E as ->. exists y. split; [reflexivity|].
      unfold Rsum. cbn [fold_right length INR]. rewrite Rplus_0_r. specialize (Hx y (or_introl eq_refl)).
      split; [replace ((1 - 1) * r1) with 0 by ring; apply near_refl; [destruct Hx; lra|lra]|]. destruct Hx; lra.
    - cbn [leaves] in E. symmetry in E. apply map_eq_app in E. destruct E as (x1 & x2 & -> & E1 & E2). rewrite app_length, plus_INR in *.
      pose proof (pos_INR (length x1)). pose proof (pos_INR (length x2)).
      destruct (IH1 x1 (eq_sym E1)) as (s1 & T1 & N1 & Z1 & M1 & O1); [intros x Hi; apply Hx, in_or_app; auto|lra|].
      destruct (IH2 x2 (eq_sym E2)) as (s2 & T2 & N2 & Z2 & M2 & O2); [intros x Hi; apply Hx, in_or_app; auto|lra|].
      cbn [total]. rewrite T1, T2. cbn [xadd fix64]. rewrite Rsum_app.
      set (n1 := INR (length x1)) in *. set (n2 := INR (length x2)) in *.
      assert (P1 : 0 <= Rsum x1) by (destruct Z1; lra). assert (P2 : 0 <= Rsum x2) by (destruct Z2; lra).
      assert (N : near ((n1 + n2 - 2) * r1) (s1 + s2) (Rsum x1 + Rsum x2)).
      { apply near_plus; [apply near_le with ((n1 - 1) * r1)|apply near_le with ((n2 - 1) * r1)]; try assumption; apply Rmult_le_compat_r; lra. }
      assert (Ee : 0 <= (n1 + n2 - 2) * r1 <= 1 / 100).
      { split; [apply Rmult_le_pos; lra|]. apply Rle_trans with (1099511627776 * r1); [apply Rmult_le_compat_r; lra|]. unfold r1, u. lra. }
      pose proof (err_of_near _ _ _ (Rplus_le_le_0_compat _ _ P1 P2) Ee N) as Er. apply Rabs_le_inv in Er.
      assert (Er2 : (Rsum x1 + Rsum x2) * ((n1 + n2 - 2) * r1 * 1.02) <= (Rsum x1 + Rsum x2) * (1/2)) by (apply Rmult_le_compat_l; lra).
      rewrite fl_fin.
      2:{ apply Rabs_le. unfold big. lra. }
      eexists. split; [reflexivity|]. split; [|split; [destruct Z1, Z2; [left|right|right|right]; lra|split; lra]].
      replace ((n1 + n2 - 1) * r1) with (r1 + (n1 + n2 - 2) * r1) by ring. apply near_trans with (s1 + s2); [|exact N].
      apply near_rnd0. unfold h. destruct Z1, Z2; [left|right|right|right]; lra. }
  intros E Hx Hn. destruct (G t xs E Hx Hn) as (s & T & N & Z & _ & O). exists s. split; [exact T|]. apply near_le with ((INR (length xs) - 1) * r1); [destruct Z; lra| |exact N].
  apply Rmult_le_compat_r; lra.
Qed.
Lemma sum_near (L : libm) xs : sums_in_some_order L -> xs <> [] -> (forall x, In x xs -> x = 0 \/ / 1000000000 <= x <= 1000) -> INR (length xs) <= 1099511627776 ->
  exists s, l_sum L (map Fin xs) = Fin s /\ near (INR (length xs) * r1) s (Rsum xs).
Proof.
  intros (_ & HS) Hne Hx Hn. destruct (HS (map Fin xs)) as (t & P & E); [destruct xs; [congruence|discriminate]|].
  apply Permutation_map_inv in P. destruct P as (xs' & El & P). rewrite E.
  assert (Len : length xs' = length xs) by (symmetry; apply Permutation_length; exact P).
  destruct (total_near t xs' El) as (s & T & N).
  - intros x Hi. apply Hx. eapply Permutation_in; [apply Permutation_sym; exact P|exact Hi].
  - rewrite Len. exact Hn.
  - exists s. split; [exact T|]. rewrite Len in N. rewrite (Rsum_perm xs xs' P). exact N.
Qed.
