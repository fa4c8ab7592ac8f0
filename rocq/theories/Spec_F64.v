(** * Specification vocabulary for double precision (no reference to the model) *)
From Coq Require Import ZArith Reals List.
From Flocq Require Import Core.
From Verif Require Import Num XR.
Import ListNotations.
Open Scope R_scope.

(** the double nearest to a real number (ties to even): what Python makes of a decimal literal *)
Definition nearest_double (x : R) : R := round radix2 (FLT_exp (-1074) 53) ZnearestE x.

(** the bin width j / 10^d as the code reads it from [str(delta)] *)
Definition width (j : Z) (d : nat) : dec := mkdec j (- Z.of_nat d).
Definition widthR (j : Z) (d : nat) : R := IZR j / IZR (10 ^ Z.of_nat d).
(** bin widths used in practice: 0.0001 ... 10, at most ten decimals *)
Definition usual_width (j : Z) (d : nat) : Prop := (d <= 10)%nat /\ 1 / 10000 <= widthR j d <= 10.

(** the double that stands for the decimal number K * delta *)
Definition decimal (j : Z) (d : nat) (K : Z) : R := nearest_double (IZR K * widthR j d).

(** a sample as an array of doubles; None is a missing (NaN) value *)
Definition sample (rs : list (option R)) : list xr :=
  map (fun o => match o with Some r => Fin (nearest_double r) | None => NaN end) rs.
Fixpoint known (rs : list (option R)) : list R :=
  match rs with [] => [] | Some r :: t => r :: known t | None :: t => known t end.
(** the differences of the known values are multiples of the bin width (the values need not be) *)
Definition on_a_grid (j : Z) (d : nat) (rs : list (option R)) : Prop :=
  forall r r', In r (known rs) -> In r' (known rs) -> exists K, r - r' = IZR K * widthR j d.

(** n consecutive integers from lo; how often k occurs *)
Definition zseq (lo : Z) (n : nat) : list Z := map (fun i => (lo + Z.of_nat i)%Z) (seq 0 n).
Definition number (k : Z) (Ks : list Z) : nat := length (filter (Z.eqb k) Ks).


(** what exact arithmetic makes of the magnitudes k * delta above mc = kc * delta: the mean of
    m - mc, the estimates of Tinti and Mulargia (classic) and of Utsu *)
Definition mean_excess (delta : R) (kc : Z) (ks : list Z) : R := Rsum (map (fun k => IZR (k - kc) * delta) ks) / INR (length ks).
Definition exact_classic (delta A : R) : R := ln (1 + delta / A) / delta / ln 10.
Definition exact_utsu (delta A : R) : R := 1 / (A + delta / 2) / ln 10.
(** the relative error allowed for n magnitudes: about n times the precision of a double *)
Definition allowed_error (delta : R) (n : nat) : R := (INR n + 620 / delta + 20) / 4503599627370496.
