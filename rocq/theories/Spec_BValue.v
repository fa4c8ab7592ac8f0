(** * Specification vocabulary for b-values (no reference to the model) *)
From Coq Require Import Reals List ZArith Sorted.
From Verif Require Import Base Num XR.
Import ListNotations.
Open Scope R_scope.

(** positions [idx] of [xs], in increasing order, are exactly those whose element
    satisfies [P], and [ys] are the elements at these positions *)
Definition picks {A} (P : A -> Prop) (xs : list A) (idx : list nat) (ys : list A) : Prop :=
  StronglySorted lt idx /\
  (forall i, In i idx <-> exists x, nth_error xs i = Some x /\ P x) /\
  Forall2 (fun i y => nth_error xs i = Some y) idx ys.
(** [ys] are the elements of [xs] at the positions [idx] *)
Definition at_positions {A} (xs : list A) (idx : list nat) (ys : list A) : Prop :=
  Forall2 (fun i y => nth_error xs i = Some y) idx ys.

(** ** samples: magnitude (may be NaN) and weight *)
Notation event := (xr * R)%type.
(** the events at or above the completeness magnitude, with their weights *)
Definition complete (mc d : R) (ev : list event) : list (R * R) :=
  flat_map (fun e => match fst e with
                     | Fin m => if rle (mc - d / 2) m then [(m, snd e)] else []
                     | _ => [] end) ev.
Definition wsum (l : list (R * R)) : R := Rsum (map snd l).
Definition wmean (l : list (R * R)) : R := Rsum (map (fun p => snd p * fst p) l) / wsum l.

Definition log10 (x : R) : R := ln x / ln 10.

(** ** likelihoods *)
Definition Rprod (l : list R) : R := fold_right Rmult 1 l.
(** density of an exponential magnitude above mc *)
Definition exp_density (beta mc m : R) : R := beta * exp (- beta * (m - mc)).
(** probability that a magnitude binned with width d is the k-th bin above mc *)
Definition bin_probability (beta d : R) (k : nat) : R := (1 - exp (- beta * d)) * exp (- beta * d) ^ k.
(** [x] is the only positive number at which [f] is largest *)
Definition unique_positive_maximiser (f : R -> R) (x : R) : Prop :=
  0 < x /\ forall y, 0 < y -> y <> x -> f y < f x.
