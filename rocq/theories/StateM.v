(** * StateM: methods that write attributes and may raise

    A method maps the state before the call to the state after it and its result; the
    writes made before an exception survive, as in Python. *)
From Verif Require Import Base.

Definition SM (S A : Type) := S -> S * res A.
Definition sret {S A} (a : A) : SM S A := fun s => (s, Ok a).
Definition sbind {S A B} (m : SM S A) (f : A -> SM S B) : SM S B :=
  fun s => match m s with (s', Ok a) => f a s' | (s', Err e) => (s', Err e) end.
Definition sraise {S A} (e : exn) : SM S A := fun s => (s, Err e).
Definition sput {S} (f : S -> S) : SM S unit := fun s => (f s, Ok tt).
Definition sget {S} : SM S S := fun s => (s, Ok s).
Definition slift {S A} (r : res A) : SM S A := fun s => (s, r).

Declare Scope sm_scope.
Delimit Scope sm_scope with sm.
Notation "'do' x '<-' m ';;' k" := (sbind m (fun x => k)) (at level 200, x pattern, m at level 100, k at level 200) : sm_scope.
Notation "m ';;;' k" := (sbind m (fun _ => k)) (at level 199, right associativity) : sm_scope.

Lemma sbind_ok {S A B} (m : SM S A) (f : A -> SM S B) s s' x : m s = (s', Ok x) -> sbind m f s = f x s'.
Proof. intros H. unfold sbind. rewrite H. reflexivity. Qed.
Lemma sbind_err {S A B} (m : SM S A) (f : A -> SM S B) s s' e : m s = (s', Err e) -> sbind m f s = (s', Err e).
Proof. intros H. unfold sbind. rewrite H. reflexivity. Qed.
