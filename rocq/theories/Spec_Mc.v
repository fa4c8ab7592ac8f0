(** * Specification vocabulary for estimate_mc (no reference to the model) *)
From Coq Require Import Reals List ZArith.
From Verif Require Import Base XR Spec_Binning.
Import ListNotations.
Open Scope R_scope.

(** distribution function of an exponential magnitude that starts at [start] *)
Definition exp_cdf (beta start v : R) : R := 1 - exp (- beta * (v - start)).
(** how often [b] occurs in [ys] *)
Definition occurrences (b : R) (ys : list R) : R := number_of (fun y => req y b) ys.
(** [c] is the smallest of the most frequent values of [ys] *)
Definition smallest_mode (c : R) (ys : list R) : Prop :=
  forall b, occurrences b ys <= occurrences c ys /\ (b < c -> occurrences b ys < occurrences c ys).
(** share of the sample that is at most [b] *)
Definition share_upto (b : R) (ys : list R) : R := number_of (fun y => rle y b) ys / INR (length ys).
