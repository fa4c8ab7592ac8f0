(** * XR: exact reals extended with +inf, -inf and NaN

    IEEE-754 rules for the special values; idealised: no rounding, no overflow of
    finite results, a single zero (taken as +0 in divisions). *)
From Coq Require Import Reals Lra ZArith List Bool Lia.
From Verif Require Import Num.
Import ListNotations.
Open Scope R_scope.

Inductive xr := Fin (r : R) | PInf | NInf | NaN.

Definition rle (a b : R) : bool := if Rle_dec a b then true else false.
Definition rlt (a b : R) : bool := if Rlt_dec a b then true else false.
Definition req (a b : R) : bool := if Req_EM_T a b then true else false.

Definition xopp (x : xr) : xr :=
  match x with Fin a => Fin (- a) | PInf => NInf | NInf => PInf | NaN => NaN end.
Definition xabs (x : xr) : xr :=
  match x with Fin a => Fin (Rabs a) | PInf | NInf => PInf | NaN => NaN end.
Definition xadd (x y : xr) : xr :=
  match x, y with
  | Fin a, Fin b => Fin (a + b)
  | NaN, _ | _, NaN => NaN
  | PInf, NInf | NInf, PInf => NaN
  | PInf, _ | _, PInf => PInf
  | NInf, _ | _, NInf => NInf
  end.
Definition xsub (x y : xr) : xr := xadd x (xopp y).
(** sign of a non-NaN value: -1, 0, 1 *)
Definition xsgn (x : xr) : Z :=
  match x with
  | Fin a => if Rlt_dec 0 a then 1%Z else if Rlt_dec a 0 then (-1)%Z else 0%Z
  | PInf => 1%Z | NInf => (-1)%Z | NaN => 0%Z
  end.
Definition xinf_of (s : Z) : xr :=
  match s with Zpos _ => PInf | Zneg _ => NInf | Z0 => NaN end.
Definition xmul (x y : xr) : xr :=
  match x, y with
  | Fin a, Fin b => Fin (a * b)
  | NaN, _ | _, NaN => NaN
  | _, _ => xinf_of (xsgn x * xsgn y)
  end.
Definition xdiv (x y : xr) : xr :=
  match x, y with
  | NaN, _ | _, NaN => NaN
  | Fin a, Fin b => if Req_EM_T b 0 then xinf_of (xsgn x) else Fin (a / b)
  | Fin _, _ => Fin 0
  | _, Fin b => if Req_EM_T b 0 then x else xinf_of (xsgn x * xsgn y)
  | _, _ => NaN
  end.
Definition xleb (x y : xr) : bool :=
  match x, y with
  | NaN, _ | _, NaN => false
  | NInf, _ | _, PInf => true
  | Fin a, Fin b => rle a b
  | _, _ => false
  end.
Definition xltb (x y : xr) : bool :=
  match x, y with
  | NaN, _ | _, NaN => false
  | NInf, NInf | PInf, PInf => false
  | NInf, _ | _, PInf => true
  | Fin a, Fin b => rlt a b
  | _, _ => false
  end.
Definition xeqb (x y : xr) : bool :=
  match x, y with
  | Fin a, Fin b => req a b
  | PInf, PInf | NInf, NInf => true
  | _, _ => false
  end.
Definition xfloorZ (x : xr) : option Z :=
  match x with Fin a => Some (Int_part a) | _ => None end.
Definition xsum (l : list xr) : xr := fold_right xadd (Fin 0) l.
Definition xsqrt (x : xr) : xr :=
  match x with
  | Fin a => if Rlt_dec a 0 then NaN else Fin (sqrt a)
  | PInf => PInf | _ => NaN
  end.
Definition xln (x : xr) : xr :=
  match x with
  | Fin a => if Rlt_dec 0 a then Fin (ln a) else if Req_EM_T a 0 then NInf else NaN
  | PInf => PInf | _ => NaN
  end.
Definition xlog10 (x : xr) : xr :=
  match x with
  | Fin a => if Rlt_dec 0 a then Fin (ln a / ln 10) else if Req_EM_T a 0 then NInf else NaN
  | PInf => PInf | _ => NaN
  end.
Definition xexp (x : xr) : xr :=
  match x with Fin a => Fin (exp a) | PInf => PInf | NInf => Fin 0 | NaN => NaN end.
Definition xpow10 (x : xr) : xr :=
  match x with Fin a => Fin (Rpower 10 a) | PInf => PInf | NInf => Fin 0 | NaN => NaN end.
Definition xtrig (f : R -> R) (x : xr) : xr := match x with Fin a => Fin (f a) | _ => NaN end.
Definition Ratan2 (y x : R) : R :=
  if Rlt_dec 0 x then atan (y / x)
  else if Rlt_dec x 0 then (if Rle_dec 0 y then atan (y / x) + PI else atan (y / x) - PI)
  else if Rlt_dec 0 y then PI / 2 else if Rlt_dec y 0 then - (PI / 2) else 0.
(** infinite arguments do not occur in the code and give NaN here *)
Definition xatan2 (y x : xr) : xr := match y, x with Fin b, Fin a => Fin (Ratan2 b a) | _, _ => NaN end.

#[global] Instance XR : Num xr := {|
  ofZ := fun z => Fin (IZR z);
  nadd := xadd; nsub := xsub; nmul := xmul; ndiv := xdiv; nopp := xopp; nabs := xabs;
  nleb := xleb; nltb := xltb; neqb := xeqb;
  nfloorZ := xfloorZ; nsum := xsum;
  nsqrt := xsqrt; nln := xln; nexp := xexp; nlog10 := xlog10; npow10 := xpow10;
  nsin := xtrig sin; ncos := xtrig cos; natan2 := xatan2; npi := Fin PI;
  nnan := NaN; ninf := PInf;
  nisnan := fun x => match x with NaN => true | _ => false end;
  nisinf := fun x => match x with PInf | NInf => true | _ => false end
|}.

(** ** Computation rules on finite values *)
Definition is_fin (x : xr) : Prop := exists r, x = Fin r.

Lemma rle_true a b : rle a b = true <-> a <= b.
Proof. unfold rle; destruct (Rle_dec a b); split; intros; try discriminate; auto; contradiction. Qed.
Lemma rle_false a b : rle a b = false <-> b < a.
Proof. unfold rle; destruct (Rle_dec a b); split; intros; try discriminate; auto; lra. Qed.
Lemma rlt_true a b : rlt a b = true <-> a < b.
Proof. unfold rlt; destruct (Rlt_dec a b); split; intros; try discriminate; auto; contradiction. Qed.
Lemma rlt_false a b : rlt a b = false <-> b <= a.
Proof. unfold rlt; destruct (Rlt_dec a b); split; intros; try discriminate; auto; lra. Qed.
Lemma req_true a b : req a b = true <-> a = b.
Proof. unfold req; destruct (Req_EM_T a b); split; intros; try discriminate; auto; contradiction. Qed.
Lemma req_false a b : req a b = false <-> a <> b.
Proof. unfold req; destruct (Req_EM_T a b); split; intros; try discriminate; auto; contradiction. Qed.

Lemma x_ofZ z : ofZ z = Fin (IZR z). Proof. reflexivity. Qed.
Lemma x_add a b : nadd (Fin a) (Fin b) = Fin (a + b). Proof. reflexivity. Qed.
Lemma x_sub a b : nsub (Fin a) (Fin b) = Fin (a - b). Proof. reflexivity. Qed.
Lemma x_mul a b : nmul (Fin a) (Fin b) = Fin (a * b). Proof. reflexivity. Qed.
Lemma x_div a b : b <> 0 -> ndiv (Fin a) (Fin b) = Fin (a / b).
Proof. intros H; simpl. destruct (Req_EM_T b 0); [contradiction|reflexivity]. Qed.
Lemma x_opp a : nopp (Fin a) = Fin (- a). Proof. reflexivity. Qed.
Lemma x_abs a : nabs (Fin a) = Fin (Rabs a). Proof. reflexivity. Qed.
Lemma x_leb a b : nleb (Fin a) (Fin b) = rle a b. Proof. reflexivity. Qed.
Lemma x_ltb a b : nltb (Fin a) (Fin b) = rlt a b. Proof. reflexivity. Qed.
Lemma x_eqb a b : neqb (Fin a) (Fin b) = req a b. Proof. reflexivity. Qed.
Lemma x_isnan a : nisnan (Fin a) = false. Proof. reflexivity. Qed.
Lemma x_isinf a : nisinf (Fin a) = false. Proof. reflexivity. Qed.
Lemma x_floorZ a : nfloorZ (Fin a) = Some (Int_part a). Proof. reflexivity. Qed.
Lemma x_floor a : nfloor (Fin a) = Fin (IZR (Int_part a)). Proof. reflexivity. Qed.
Lemma x_ln a : 0 < a -> nln (Fin a) = Fin (ln a).
Proof. intros H; simpl. destruct (Rlt_dec 0 a); [reflexivity|contradiction]. Qed.
Lemma x_log10 a : 0 < a -> nlog10 (Fin a) = Fin (ln a / ln 10).
Proof. intros H; simpl. destruct (Rlt_dec 0 a); [reflexivity|contradiction]. Qed.
Lemma x_exp a : nexp (Fin a) = Fin (exp a). Proof. reflexivity. Qed.
Lemma x_pow10 a : npow10 (Fin a) = Fin (Rpower 10 a). Proof. reflexivity. Qed.
Lemma x_sqrt a : 0 <= a -> nsqrt (Fin a) = Fin (sqrt a).
Proof. intros H; simpl. destruct (Rlt_dec a 0); [lra|reflexivity]. Qed.
Lemma x_lit m k : lit m k = Fin (IZR m / IZR (10 ^ Z.of_nat k)).
Proof.
  unfold lit. rewrite !x_ofZ, x_div; [reflexivity|].
  apply not_0_IZR. apply Z.pow_nonzero; lia.
Qed.
Lemma x_zero : (zero : xr) = Fin 0. Proof. reflexivity. Qed.
Lemma x_one : (one : xr) = Fin 1. Proof. reflexivity. Qed.
Lemma x_two : (two : xr) = Fin 2. Proof. reflexivity. Qed.
Lemma x_half : (half : xr) = Fin (1 / 2).
Proof. unfold half. rewrite x_one, x_two, x_div; [reflexivity|lra]. Qed.
Lemma x_ofnat n : (ofnat n : xr) = Fin (INR n).
Proof. unfold ofnat. rewrite x_ofZ, INR_IZR_INZ. reflexivity. Qed.

Definition Rsum (l : list R) : R := fold_right Rplus 0 l.

Lemma x_sum l : nsum (map Fin l) = Fin (Rsum l).
Proof.
  change (fold_right xadd (Fin 0) (map Fin l) = Fin (Rsum l)).
  induction l as [|a l IH]; [reflexivity|]. cbn [map fold_right]. rewrite IH. reflexivity.
Qed.
Lemma x_mean l : l <> [] -> nmean (map Fin l) = Fin (Rsum l / INR (length l)).
Proof.
  intros H. unfold nmean. rewrite x_sum, map_length, x_ofnat, x_div; [reflexivity|].
  apply not_0_INR. destruct l; [congruence|discriminate].
Qed.
Lemma x_mean_nil : nmean (@nil xr) = NaN.
Proof. unfold nmean. cbn. destruct (Req_EM_T 0 0); [|lra]. destruct (Rlt_dec 0 0); [lra|reflexivity]. Qed.

Lemma x_min2 a b : nmin2 (Fin a) (Fin b) = Fin (Rmin a b).
Proof.
  unfold nmin2. rewrite !x_isnan, x_ltb. destruct (rlt b a) eqn:E.
  - apply rlt_true in E. rewrite Rmin_right; [reflexivity|lra].
  - apply rlt_false in E. rewrite Rmin_left; [reflexivity|lra].
Qed.
Lemma x_max2 a b : nmax2 (Fin a) (Fin b) = Fin (Rmax a b).
Proof.
  unfold nmax2. rewrite !x_isnan, x_ltb. destruct (rlt a b) eqn:E.
  - apply rlt_true in E. rewrite Rmax_right; [reflexivity|lra].
  - apply rlt_false in E. rewrite Rmax_left; [reflexivity|lra].
Qed.
Definition Rminl (x : R) (l : list R) : R := fold_left Rmin l x.
Definition Rmaxl (x : R) (l : list R) : R := fold_left Rmax l x.
Lemma x_amin x l : amin (Fin x) (map Fin l) = Fin (Rminl x l).
Proof.
  unfold amin, Rminl. revert x. induction l as [|a l IH]; intros x; [reflexivity|].
  cbn [fold_left map]. rewrite x_min2. apply IH.
Qed.
Lemma x_amax x l : amax (Fin x) (map Fin l) = Fin (Rmaxl x l).
Proof.
  unfold amax, Rmaxl. revert x. induction l as [|a l IH]; intros x; [reflexivity|].
  cbn [fold_left map]. rewrite x_max2. apply IH.
Qed.

Lemma Int_part_spec r : IZR (Int_part r) <= r < IZR (Int_part r) + 1.
Proof. destruct (base_Int_part r); lra. Qed.
Lemma Int_part_unique r z : IZR z <= r < IZR z + 1 -> Int_part r = z.
Proof.
  intros H. destruct (Int_part_spec r) as [A B].
  assert (IZR (Int_part r) < IZR z + 1) by lra.
  assert (IZR z < IZR (Int_part r) + 1) by lra.
  rewrite <- plus_IZR in *. apply lt_IZR in H0. apply lt_IZR in H1. lia.
Qed.

Lemma IZR_pow10_pos k : (0 <= k)%Z -> 0 < IZR (10 ^ k).
Proof. intros H. apply IZR_lt. apply Z.pow_pos_nonneg; lia. Qed.

(** value of a decimal literal as a real *)
Definition decR (d : dec) : R :=
  if (expo d <? 0)%Z then IZR (mant d) / IZR (10 ^ (- expo d)) else IZR (mant d * 10 ^ expo d).
Lemma x_dec_val d : dec_val d = Fin (decR d).
Proof.
  unfold dec_val, decR. destruct (Z.ltb_spec (expo d) 0).
  - rewrite !x_ofZ, x_div; [reflexivity|].
    assert (0 < IZR (10 ^ (- expo d))) by (apply IZR_pow10_pos; lia). lra.
  - reflexivity.
Qed.
