(** * FloatInst: the number operations on Coq's primitive binary64 floats

    Only used by the [Tests_*.v] files, which run the model on the vectors of the
    repository's docstrings and unit tests.  The elementary functions are series
    approximations good to about 1e-14; comparisons in the tests are made with a
    tolerance. *)
From Coq Require Import ZArith List Floats Bool.
From Verif Require Import Num.
Import ListNotations.
Open Scope float_scope.

Definition f_ofZ (z : Z) : float := SF2Prim (binary_normalize 53 1024 z 0 false).
Definition f_floorZ (x : float) : option Z :=
  match Prim2SF x with
  | S754_finite s m e => Some (Z.shiftl (if s then Zneg m else Zpos m) e)
  | S754_zero _ => Some 0%Z
  | _ => None
  end.
Fixpoint f_sum_aux (l : list float) (acc : float) : float :=
  match l with [] => acc | x :: t => f_sum_aux t (acc + x) end.

(** atanh series: y + y^3/3 + ... *)
Fixpoint f_atanh (n : nat) (k : float) (y2 : float) : float :=
  match n with O => 1 / k | S n' => 1 / k + y2 * f_atanh n' (k + 2) y2 end.
Definition f_ln2 : float := 0x1.62e42fefa39efp-1.
Definition f_ln (x : float) : float :=
  if is_nan x then nan else if x <? 0 then nan else if x =? 0 then neg_infinity
  else if is_infinity x then infinity
  else let (m, e) := Z.frexp x in
       let '(m, e) := if m <? 0.7 then (m * 2, (e - 1)%Z) else (m, e) in
       let y := (m - 1) / (m + 1) in
       2 * y * f_atanh 22 1 (y * y) + f_ofZ e * f_ln2.
Fixpoint f_expT (n : nat) (k r : float) : float :=
  match n with O => 1 | S n' => 1 + r / k * f_expT n' (k + 1) r end.
Definition f_exp (x : float) : float :=
  if is_nan x then nan else if x <? -800 then 0 else if 800 <? x then infinity
  else match f_floorZ (x / f_ln2 + 0.5) with
       | None => nan
       | Some k => let r := x - f_ofZ k * f_ln2 in Z.ldexp (f_expT 20 1 r) k
       end.
Definition f_ln10 : float := f_ln 10.
Definition f_log10 (x : float) : float :=
  let y := f_ln x / f_ln10 in
  (* np.log10 is exact on powers of ten: snap to a close integer *)
  match f_floorZ (y + 0.5) with
  | Some z => if abs (y - f_ofZ z) <=? 1e-14 then f_ofZ z else y
  | None => y
  end.
Definition f_pow10 (x : float) : float :=
  match f_floorZ x with
  | Some z => if f_ofZ z =? x
              then (if (z <? 0)%Z then 1 / f_ofZ (10 ^ (- z)) else f_ofZ (10 ^ z))
              else f_exp (x * f_ln10)
  | None => if x <? 0 then 0 else x
  end.
Definition f_pi : float := 0x1.921fb54442d18p+1.
Fixpoint f_sinT (n : nat) (k x2 : float) : float :=
  match n with O => 1 | S n' => 1 - x2 / (k * (k + 1)) * f_sinT n' (k + 2) x2 end.
Definition f_sin (x : float) : float :=
  match f_floorZ (x / (2 * f_pi) + 0.5) with
  | Some k => let r := x - f_ofZ k * (2 * f_pi) in r * f_sinT 24 2 (r * r)
  | None => nan
  end.
Definition f_cos (x : float) : float := f_sin (x + f_pi / 2).
Definition f_atan2 (y x : float) : float :=   (* Newton on x sin t - y cos t; for x, y >= 0 (all that the tests need) *)
  if (y =? 0)%float && (x =? 0)%float then 0 else
  let step (t : float) := t - (x * f_sin t - y * f_cos t) / (x * f_cos t + y * f_sin t) in
  step (step (step (step (step (step (f_pi / 4)))))).

#[global] Instance FL : Num float := {|
  ofZ := f_ofZ;
  nadd := PrimFloat.add; nsub := PrimFloat.sub; nmul := PrimFloat.mul; ndiv := PrimFloat.div;
  nopp := PrimFloat.opp; nabs := PrimFloat.abs;
  nleb := PrimFloat.leb; nltb := PrimFloat.ltb; neqb := PrimFloat.eqb;
  nfloorZ := f_floorZ;
  nsum := fun l => f_sum_aux l 0;
  nsqrt := PrimFloat.sqrt; nln := f_ln; nexp := f_exp; nlog10 := f_log10; npow10 := f_pow10;
  nsin := f_sin; ncos := f_cos; natan2 := f_atan2; npi := f_pi;
  nnan := nan; ninf := infinity;
  nisnan := is_nan; nisinf := is_infinity
|}.

(** helpers for the tests: floats from decimal literals and comparison up to 1e-9 *)
Definition fl (m : Z) (k : nat) : float := lit m k.
Definition close (a b : float) : bool := abs (a - b) <=? 1e-9.
Fixpoint closel (a b : list float) : bool :=
  match a, b with
  | [], [] => true
  | x :: a', y :: b' => close x y && closel a' b'
  | _, _ => false
  end.
