(** * Specification vocabulary for the plots and the magnitude conversion *)
From Coq Require Import Reals List String Ascii Bool.
From Verif Require Import Base XR.
Import ListNotations.
Open Scope R_scope.

(** the letter [c] occurs in [s] *)
Definition occurs (c : ascii) (s : string) : Prop := exists a b, s = (a ++ String c b)%string.
(** a type of local magnitude contains an l, a type of moment magnitude a w, in either case *)
Definition local_type (s : string) : Prop := occurs "l" s \/ occurs "L" s.
Definition moment_type (s : string) : Prop := ~ local_type s /\ (occurs "w" s \/ occurs "W" s).
(** Edwards et al. (2010) *)
Definition edwards (m : R) : R := 1.02 + 0.472 * m + 0.0491 * m ^ 2.

(** the value at [t] of the step function (steps after the points) through [pts]: that of the last
    point not after [t] *)
Fixpoint step_at (pts : list (R * R)) (t : R) : option R :=
  match pts with
  | [] => None
  | (x, y) :: r => match step_at r t with
                   | Some v => Some v
                   | None => if Rle_dec x t then Some y else None
                   end
  end.
(** total weight of the elements of [ev] selected by [P] *)
Definition total {A} (weight : A -> R) (P : A -> bool) (ev : list A) : R := Rsum (map weight (filter P ev)).
