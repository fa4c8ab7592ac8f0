(** Proofs about Binning_model, on exact reals with special values. *)
From Coq Require Import Reals Lra List Permutation Lia Bool ZArith.
From Verif Require Import Base Num XR RList Binning_model Spec_Binning.
Import ListNotations.
Open Scope R_scope.

Lemma eps_xr : (EPSILON : xr) = Fin epsR.
Proof. unfold EPSILON. rewrite x_lit. f_equal. Qed.
Lemma epsR_bounds : 0 < epsR < 1 / 1000000.
Proof. unfold epsR. simpl. lra. Qed.

Lemma nrti_fin x : normal_round_to_int (Fin x) = Fin (IZR (Int_part (x + 5 / 10 + epsR))).
Proof.
  unfold normal_round_to_int. rewrite eps_xr, x_lit, !x_add, x_floor. f_equal.
Qed.

Lemma Int_part_half z : Int_part (IZR z + 5 / 10 + epsR) = z.
Proof. apply Int_part_unique. pose proof epsR_bounds. lra. Qed.

Lemma decR_scaled (d : dec) (k : Z) :
  exists z : Z, IZR k * decR d * IZR (10 ^ Z.of_nat (Z.to_nat (Z.abs (expo d)))) = IZR z.
Proof.
  unfold decR. rewrite Z2Nat.id by lia. destruct (Z.ltb_spec (expo d) 0).
  - exists (k * mant d)%Z. rewrite mult_IZR. rewrite Z.abs_neq by lia.
    assert (0 < IZR (10 ^ (- expo d))) by (apply IZR_pow10_pos; lia). field. lra.
  - exists (k * (mant d * 10 ^ expo d) * 10 ^ Z.abs (expo d))%Z. rewrite !mult_IZR. reflexivity.
Qed.

Lemma bin_elem_fin d x : decR d <> 0 ->
  bin_elem d (Fin x) = Fin (binR (decR d) x).
Proof.
  intros Hd. unfold bin_elem, binR, normal_round. rewrite x_dec_val, x_div by assumption.
  rewrite nrti_fin, x_mul. rewrite x_ofZ, x_mul, nrti_fin.
  destruct (decR_scaled d (Int_part (x / decR d + 5 / 10 + epsR))) as [z Hz].
  rewrite Hz, Int_part_half.
  assert (Hp : 0 < IZR (10 ^ Z.of_nat (Z.to_nat (Z.abs (expo d))))) by (apply IZR_pow10_pos; lia).
  rewrite x_div by lra. f_equal. rewrite <- Hz. field. lra.
Qed.

Lemma bin_elem_nan d : bin_elem d NaN = NaN.
Proof. unfold bin_elem, normal_round, normal_round_to_int. rewrite x_dec_val. reflexivity. Qed.

Lemma delta_ok_ltb d : epsR <= decR d -> nltb (dec_val d) (EPSILON : xr) = false.
Proof. intros H. rewrite x_dec_val, eps_xr, x_ltb. apply rlt_false. assumption. Qed.
Lemma delta_bad_ltb d : decR d < epsR -> nltb (dec_val d) (EPSILON : xr) = true.
Proof. intros H. rewrite x_dec_val, eps_xr, x_ltb. apply rlt_true. assumption. Qed.

Lemma bin_to_precision_fin d xs : epsR <= decR d ->
  bin_to_precision (Some (map Fin xs)) d = Ok (map Fin (map (binR (decR d)) xs)).
Proof.
  intros H. pose proof epsR_bounds. unfold bin_to_precision. rewrite delta_ok_ltb by assumption.
  f_equal. rewrite !map_map. apply map_ext. intros x. apply bin_elem_fin. lra.
Qed.

(** *** the rounding function on reals *)
Lemma binR_near d x : 0 < d -> near_grid d x (binR d x).
Proof.
  intros Hd. unfold binR. set (k := Int_part (x / d + 5 / 10 + epsR)). exists k. split; [reflexivity|].
  destruct (Int_part_spec (x / d + 5 / 10 + epsR)) as [A B]. fold k in A, B.
  assert (Ex : x = x / d * d) by (field; lra). set (q := x / d) in *. rewrite Ex. split; nra.
Qed.
Lemma near_grid_unique d x y1 y2 : 0 < d -> near_grid d x y1 -> near_grid d x y2 -> y1 = y2.
Proof.
  intros Hd (k1 & -> & A1 & B1) (k2 & -> & A2 & B2).
  assert (k1 = k2); [|subst; reflexivity].
  assert (L1 : IZR k1 * d < (IZR k2 + 1) * d) by lra.
  assert (L2 : IZR k2 * d < (IZR k1 + 1) * d) by lra.
  apply Rmult_lt_reg_r in L1; [|assumption]. apply Rmult_lt_reg_r in L2; [|assumption].
  rewrite <- plus_IZR in *. apply lt_IZR in L1. apply lt_IZR in L2. lia.
Qed.
Lemma binR_grid d k : 0 < d -> binR d (IZR k * d) = IZR k * d.
Proof.
  intros Hd. apply (near_grid_unique d (IZR k * d)); [assumption|apply binR_near; assumption|].
  exists k. split; [reflexivity|]. pose proof epsR_bounds. split; nra.
Qed.
Lemma binR_idem d x : 0 < d -> binR d (binR d x) = binR d x.
Proof. intros Hd. destruct (binR_near d x Hd) as (k & E & _). rewrite E. apply binR_grid; assumption. Qed.
Lemma binR_mono d x y : 0 < d -> x <= y -> binR d x <= binR d y.
Proof.
  intros Hd H. destruct (binR_near d x Hd) as (k1 & E1 & A1 & B1).
  destruct (binR_near d y Hd) as (k2 & E2 & A2 & B2). rewrite E1, E2 in *.
  destruct (Z_le_gt_dec k1 k2) as [L|G].
  - apply Rmult_le_compat_r; [lra|]. apply IZR_le; assumption.
  - exfalso. assert (IZR k2 + 1 <= IZR k1) by (rewrite <- plus_IZR; apply IZR_le; lia). nra.
Qed.
Lemma binR_shift d x k : 0 < d -> binR d (x + IZR k * d) = binR d x + IZR k * d.
Proof.
  intros Hd. apply (near_grid_unique d (x + IZR k * d)); [assumption|apply binR_near; assumption|].
  destruct (binR_near d x Hd) as (j & E & A & B). exists (j + k)%Z. rewrite E in *.
  split; [rewrite plus_IZR; lra|]. lra.
Qed.
Lemma binR_tie d k : 0 < d -> binR d ((IZR k + 1 / 2) * d) = IZR (k + 1) * d.
Proof.
  intros Hd. apply (near_grid_unique d ((IZR k + 1 / 2) * d)); [assumption|apply binR_near; assumption|].
  exists (k + 1)%Z. split; [reflexivity|]. rewrite plus_IZR. pose proof epsR_bounds. split; nra.
Qed.
