(** * F64: the number operations of IEEE 754 double precision

    A double is a real number, +inf, -inf or NaN.  Addition, subtraction, multiplication,
    division and square root are the exact results rounded to 53 bits (round to nearest, ties to
    even, with subnormal numbers) and infinite if they are too large.  Simplified: one zero
    instead of two.  The functions that the standard does not fix (np.log, np.exp, ... and the
    order in which np.sum adds) are left open: they are the fields of [libm], and the theorems
    hold for all of them. *)
From Coq Require Import ZArith List Bool Reals Permutation.
From Flocq Require Import Core.
From Verif Require Import Num XR Openquake_model.
Import ListNotations.
Open Scope R_scope.

(** rounding of an exact result; [rnd] is rounding to nearest even, Openquake_model.v *)
Definition maxfin : R := bpow radix2 1024.
Definition fl (r : R) : xr :=
  if Rlt_dec (Rabs (rnd r)) maxfin then Fin (rnd r) else if Rlt_dec 0 r then PInf else NInf.
Definition fix64 (x : xr) : xr := match x with Fin r => fl r | _ => x end.

(** what is left open *)
Record libm := { l_sum : list xr -> xr; l_ln : xr -> xr; l_exp : xr -> xr; l_log10 : xr -> xr; l_pow10 : xr -> xr;
                 l_sin : xr -> xr; l_cos : xr -> xr; l_atan2 : xr -> xr -> xr }.

Definition F64 (L : libm) : Num xr := {|
  ofZ := fun z => fl (IZR z);
  nadd := fun x y => fix64 (xadd x y); nsub := fun x y => fix64 (xsub x y);
  nmul := fun x y => fix64 (xmul x y); ndiv := fun x y => fix64 (xdiv x y);
  nopp := xopp; nabs := xabs;
  nleb := xleb; nltb := xltb; neqb := xeqb;
  nfloorZ := xfloorZ; nsum := l_sum L;
  nsqrt := fun x => fix64 (xsqrt x); nln := l_ln L; nexp := l_exp L; nlog10 := l_log10 L; npow10 := l_pow10 L;
  nsin := l_sin L; ncos := l_cos L; natan2 := l_atan2 L; npi := fl PI;
  nnan := NaN; ninf := PInf;
  nisnan := fun x => match x with NaN => true | _ => false end;
  nisinf := fun x => match x with PInf | NInf => true | _ => false end
|}.

(** the sum of an array is taken in some order, with some bracketing (numpy: pairwise) *)
Inductive sumtree := Leaf (x : xr) | Node (l r : sumtree).
Fixpoint leaves (t : sumtree) : list xr := match t with Leaf x => [x] | Node l r => leaves l ++ leaves r end.
Fixpoint total (t : sumtree) : xr := match t with Leaf x => x | Node l r => fix64 (xadd (total l) (total r)) end.
Definition sums_in_some_order (L : libm) : Prop :=
  l_sum L [] = Fin 0 /\ forall l, l <> [] -> exists t, Permutation (leaves t) l /\ l_sum L l = total t.
(** the logarithm of a double above 1 has a relative error of at most 2^-51 (glibc: less than
    one unit in the last place) *)
Definition log_accurate (L : libm) : Prop := forall x, 1 < x < maxfin -> rnd x = x ->
  exists y, l_ln L (Fin x) = Fin y /\ Rabs (y - ln x) <= ln x / 2251799813685248.
