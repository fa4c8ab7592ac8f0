(** * Specification vocabulary for the estimators based on magnitude differences *)
From Coq Require Import List Sorted Permutation Bool.
From Verif Require Import Base Num.
Import ListNotations.

Section S.
  Context {T : Type} {N : Num T}.

  (** event [i] is not later than event [j] (NaN and NaT times are last) *)
  Definition not_later (ts : list T) (i j : nat) : Prop :=
    forall x y, nth_error ts i = Some x -> nth_error ts j = Some y -> nsort_le x y = true.

  (** what np.argsort promises; the order of equal times is not specified *)
  Definition argsort_ok (srt : list T -> list nat) : Prop :=
    forall l, Permutation (srt l) (seq 0 (length l)) /\ StronglySorted (not_later l) (srt l).

  (** [order] lists the positions of the events with magnitude [>= lim] in time order (in
      input order if there are no times) *)
  Definition time_order (mags : list T) (lim : T) (times : option (list T)) (order : list nat) : Prop :=
    NoDup order /\
    (forall i, In i order <-> exists m, nth_error mags i = Some m /\ nleb lim m = true) /\
    match times with
    | None => StronglySorted lt order
    | Some ts => StronglySorted (not_later ts) order
    end.
End S.

(** pairs of consecutive elements *)
Definition consecutive {A} (l : list A) : list (A * A) := combine l (tl l).

(** each element with the first later one that [far] accepts, if any *)
Fixpoint next_pairs {A} (far : A -> A -> bool) (l : list A) : list (A * A) :=
  match l with
  | [] => []
  | i :: later => match find (far i) later with
                  | Some j => (i, j) :: next_pairs far later
                  | None => next_pairs far later
                  end
  end.

(** each element with the first later one that [far] accepts, [None] if there is none *)
Fixpoint with_next {A} (far : A -> A -> bool) (l : list A) : list (A * option A) :=
  match l with [] => [] | i :: later => (i, find (far i) later) :: with_next far later end.
