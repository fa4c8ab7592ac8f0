(** * Python dictionaries with string keys *)
From Coq Require Import List Bool String.
Import ListNotations.
Open Scope string_scope.

(** in insertion order *)
Definition dict (V : Type) := list (string * V).
Fixpoint dget {V} (d : dict V) (k : string) : option V :=
  match d with [] => None | (k', v) :: d => if k =? k' then Some v else dget d k end.
Fixpoint dset {V} (d : dict V) (k : string) (v : V) : dict V :=
  match d with
  | [] => [(k, v)]
  | (k', v') :: t => if k =? k' then (k', v) :: t else (k', v') :: dset t k v
  end.
(** [d.update(e)], [d | e] *)
Definition dupdate {V} (d e : dict V) : dict V := fold_left (fun d kv => dset d (fst kv) (snd kv)) e d.


Lemma dget_dset {V} (d : dict V) k v k' : dget (dset d k v) k' = if (k' =? k)%string then Some v else dget d k'.
Proof.
  induction d as [|[a b] d IH]; cbn; [reflexivity|]. destruct (k =? a)%string eqn:E; cbn; destruct (k' =? a)%string eqn:F.
  - apply String.eqb_eq in E, F. subst. rewrite String.eqb_refl. reflexivity.
  - apply String.eqb_eq in E. subst a. rewrite F. reflexivity.
  - apply String.eqb_eq in F. subst a. destruct (k' =? k)%string eqn:G; [|reflexivity]. apply String.eqb_eq in G. subst. rewrite String.eqb_refl in E. discriminate.
  - exact IH.
Qed.
Lemma filter_dset {V} (f : string -> bool) (d : dict V) k v : f k = false -> filter (fun kv => f (fst kv)) (dset d k v) = filter (fun kv => f (fst kv)) d.
Proof.
  intros Hk. induction d as [|[a b] d IH]; cbn; [rewrite Hk; reflexivity|]. destruct (k =? a)%string eqn:E; cbn.
  - apply String.eqb_eq in E. subst a. rewrite Hk. reflexivity.
  - rewrite IH. reflexivity.
Qed.
Lemma dget_dupdate {V} (e : dict V) : forall d k, NoDup (map fst e) -> dget (dupdate d e) k = match dget e k with Some v => Some v | None => dget d k end.
Proof.
  unfold dupdate. induction e as [|[a b] e IH]; intros d k Hn; [reflexivity|]. inversion_clear Hn as [|? ? H1 H2]. cbn [fold_left fst snd]. rewrite IH by exact H2. cbn [dget]. rewrite dget_dset.
  destruct (k =? a)%string eqn:E; [|reflexivity]. apply String.eqb_eq in E. subst k. destruct (dget e a) eqn:G; [|reflexivity]. exfalso. apply H1. clear -G.
  induction e as [|[x y] e IH]; cbn in *; [discriminate|]. destruct (a =? x)%string eqn:F; [left; apply String.eqb_eq in F; congruence|right; auto].
Qed.
