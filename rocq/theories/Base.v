(** * Base: exceptions as values and the list operations the numpy code uses *)
From Coq Require Export Arith ZArith Bool Lia String List.
Export ListNotations.
Open Scope list_scope.

(** Python exceptions that the modelled code can raise (or that numpy/pandas raise
    inside it).  [Warn]ings are not exceptions and are modelled separately. *)
Inductive exn :=
| ValueError | IndexError | KeyError | AttributeError | ZeroDivisionError
| AssertionError | TypeError | UnboundLocalError | LinAlgError | NotImplementedErr.

Inductive res (A : Type) := Ok (a : A) | Err (e : exn).
Arguments Ok {A} a.
Arguments Err {A} e.

Definition rbind {A B} (r : res A) (f : A -> res B) : res B :=
  match r with Ok a => f a | Err e => Err e end.
Definition rmap {A B} (f : A -> B) (r : res A) : res B :=
  match r with Ok a => Ok (f a) | Err e => Err e end.

Declare Scope res_scope.
Delimit Scope res_scope with res.
Notation "'let?' x ':=' e 'in' k" := (rbind e (fun x => k))
  (at level 200, x pattern, e at level 100, k at level 200, right associativity) : res_scope.
Open Scope res_scope.

(** ** numpy indexing *)

(** [xs[mask]] with a boolean mask of the same length. *)
Fixpoint compress {A} (mask : list bool) (xs : list A) : list A :=
  match mask, xs with
  | b :: m, x :: t => if b then x :: compress m t else compress m t
  | _, _ => []
  end.

(** [np.where(mask)[0]]: the positions of the [True] entries, increasing. *)
Fixpoint where_from (k : nat) (mask : list bool) : list nat :=
  match mask with
  | [] => []
  | b :: m => if b then k :: where_from (S k) m else where_from (S k) m
  end.
Definition where_idx (mask : list bool) : list nat := where_from 0 mask.

(** [xs[idx]] with an integer index array (non-negative indices): IndexError if some
    index is out of range. *)
Fixpoint gather {A} (xs : list A) (idx : list nat) : res (list A) :=
  match idx with
  | [] => Ok []
  | i :: t => match nth_error xs i with
              | None => Err IndexError
              | Some x => let? r := gather xs t in Ok (x :: r)
              end
  end.

Fixpoint zip {A B} (xs : list A) (ys : list B) : list (A * B) :=
  match xs, ys with
  | x :: xs', y :: ys' => (x, y) :: zip xs' ys'
  | _, _ => []
  end.

Fixpoint map2 {A B C} (f : A -> B -> C) (xs : list A) (ys : list B) : list C :=
  match xs, ys with
  | x :: xs', y :: ys' => f x y :: map2 f xs' ys'
  | _, _ => []
  end.

(** [xs[i:j]] for [0 <= i], python slices never raise. *)
Definition slice {A} (i j : nat) (xs : list A) : list A := firstn (j - i) (skipn i xs).

(** Stable insertion sort with an arbitrary boolean order. *)
Fixpoint insert_by {A} (le : A -> A -> bool) (x : A) (l : list A) : list A :=
  match l with
  | [] => [x]
  | y :: t => if le x y then x :: y :: t else y :: insert_by le x t
  end.
Fixpoint isort {A} (le : A -> A -> bool) (l : list A) : list A :=
  match l with [] => [] | x :: t => insert_by le x (isort le t) end.

(** A concrete stable argsort (what [np.argsort(kind='stable')] returns). *)
Definition argsort_by {A} (le : A -> A -> bool) (l : list A) : list nat :=
  map snd (isort (fun p q => le (fst p) (fst q)) (zip l (seq 0 (length l)))).

Definition count {A} (p : A -> bool) (l : list A) : nat := length (filter p l).

(** Number of occurrences of each distinct element etc. use [count]. *)
