(** * Specification vocabulary for binning (no reference to the model) *)
From Coq Require Import Reals List ZArith.
Import ListNotations.
Open Scope R_scope.

(** the constant 1e-12 of the code *)
Definition epsR : R := 1 / IZR (10 ^ 12).

(** [y] is the multiple of [d] that [x] has to be rounded to: [x] lies in the half-open
    bin around [y], whose lower edge is half a bin below [y] (lowered by the documented
    tolerance of 1e-12 bins) and belongs to the bin (ties go up). *)
Definition near_grid (d x y : R) : Prop :=
  exists k : Z, y = IZR k * d /\ y - (1 / 2 + epsR) * d <= x < y + (1 / 2 - epsR) * d.

(** the rounding as a function *)
Definition binR (d x : R) : R := IZR (Int_part (x / d + 5 / 10 + epsR)) * d.

(** n consecutive multiples of d starting with lo*d *)
Definition grid (d : R) (lo : Z) (n : nat) : list R :=
  map (fun i => IZR (lo + Z.of_nat i) * d) (seq 0 n).

(** the finite values of a sample that may contain NaN *)
From Verif Require Import Num XR.
Fixpoint fins (x : list xr) : list R :=
  match x with [] => [] | Fin r :: t => r :: fins t | _ :: t => fins t end.
Definition no_inf (x : list xr) : Prop := forall v, In v x -> v <> PInf /\ v <> NInf.

Definition is_min (m : R) (vs : list R) : Prop := In m vs /\ forall v, In v vs -> m <= v.

(** every value differs from the smallest one by a multiple of [d], up to the absolute
    tolerance [t] and the relative tolerance 1e-16 *)
Definition relR : R := 1 / IZR (10 ^ 16).
Definition binned_within (d t : R) (vs : list R) : Prop :=
  forall m, is_min m vs -> forall v, In v vs ->
  exists k : Z, Rabs (v - m - IZR k * d) <= t + relR * (v - m).

(** the tolerance is well below half a bin *)
Definition tol_small (d t : R) (vs : list R) : Prop :=
  forall v w, In v vs -> In w vs -> t + relR * (v - w) < (1 / 2 - epsR) * d.

(** [D] is the next power of ten above [d] *)
Definition next_pow10 (d D : R) : Prop :=
  exists p : Z, D = powerRZ 10 (p + 1) /\ powerRZ 10 p <= d < D.

(** two samples consist of the same values up to a common shift [c] (whatever the
    order, the multiplicities and the NaN entries) *)
Definition same_values_up_to (c : R) (x y : list xr) : Prop :=
  forall v, In v (fins x) <-> In (v + c) (fins y).

From Verif Require Import Base.
Definition is_max (m : R) (vs : list R) : Prop := In m vs /\ forall v, In v vs -> v <= m.
(** total weight of the elements of [ys] that satisfy [P] ([ws] are their weights) *)
Definition weight_of (P : R -> bool) (ys ws : list R) : R :=
  Rsum (map snd (filter (fun p => P (fst p)) (zip ys ws))).
(** number of elements that satisfy [P] *)
Definition number_of (P : R -> bool) (ys : list R) : R := INR (count P ys).
