(** * Specification vocabulary for b_significant.py *)
From Coq Require Import List Arith.
From Verif Require Import Base.
Import ListNotations.

(** [parts] cuts [l] into consecutive pieces of exactly [n] elements, the last of which may
    be shorter (but is empty only if [l] is) *)
Inductive pieces {A} (n : nat) : list A -> list (list A) -> Prop :=
| pieces_last l : length l <= n -> pieces n l [l]
| pieces_cons p l ps : length p = n -> l <> [] -> pieces n l ps -> pieces n (p ++ l) (p :: ps).

(** the window of [n] consecutive elements that starts at position [j] *)
Definition window {A} (n : nat) (l : list A) (j : nat) : list A := firstn n (skipn j l).
(** the positions ii, ii + n, ii + 2n, ... at which a window of [n] elements fits into [L] *)
Definition starts (n L ii : nat) : list nat := map (fun k => ii + k * n) (seq 0 ((L - ii) / n)).
(** the cumulative lengths of the pieces, without the total *)
Fixpoint cumulative {A} (from : nat) (parts : list (list A)) : list nat :=
  match parts with
  | [] | [_] => []
  | p :: ps => (from + length p) :: cumulative (from + length p) ps
  end.

(** ** Moran's I *)
From Coq Require Import Reals.
From Verif Require Import Num XR BSig_model.
(** a value of the series, None for NaN *)
Definition ov (v : option R) : xr := match v with Some x => Fin x | None => NaN end.
(** the values that are not NaN *)
Definition known (vs : list (option R)) : list R := flat_map (fun v => match v with Some x => [x] | None => [] end) vs.
(** the pairs of neighbouring values, both known; [a i j] says that positions i < j are neighbours *)
Definition known_pairs (a : nat -> nat -> bool) (vs : list (option R)) : list (R * R) :=
  flat_map (fun i => flat_map (fun j =>
    if a i j then match nth i vs None, nth j vs None with Some x, Some y => [(x, y)] | _, _ => [] end else [])
    (seq 0 (length vs))) (seq 0 (length vs)).
(** the sum of squared deviations and the sum of the products of neighbouring deviations *)
Definition dev2 (m : R) (vs : list (option R)) : R := Rsum (map (fun x => (x - m) * (x - m))%R (known vs)).
Definition devprod (m : R) (a : nat -> nat -> bool) (vs : list (option R)) : R :=
  Rsum (map (fun p => (fst p - m) * (snd p - m))%R (known_pairs a vs)).
Definition known_mean (vs : list (option R)) : R := (Rsum (known vs) / INR (length (known vs)))%R.
(** neighbour matrices of a relation on positions i < j: upper triangular, lower triangular, symmetric *)
Definition upper (n : nat) (a : nat -> nat -> bool) : mat xr := mkmat n n (fun i j => if a i j then Fin 1 else Fin 0).
Definition lower (n : nat) (a : nat -> nat -> bool) : mat xr := mkmat n n (fun i j => if a j i then Fin 1 else Fin 0).
Definition both (n : nat) (a : nat -> nat -> bool) : mat xr := mkmat n n (fun i j => if a i j || a j i then Fin 1 else Fin 0)%bool.
Definition next_neighbour (i j : nat) : bool := (j =? i + 1)%nat.
