(** * Specification vocabulary for declustering (no reference to the algorithm) *)
From Coq Require Import Reals List ZArith Arith.
Import ListNotations.
Open Scope R_scope.

(** a catalogue of n events: magnitudes and times; [earlier j i]: event j is treated before
    event i: larger magnitude first, then earlier time, then position in the catalogue *)
Definition earlier (mag time : nat -> R) (j i : nat) : Prop :=
  mag i < mag j \/ (mag i = mag j /\ (time j < time i \/ (time j = time i /\ (j < i)%nat))).
(** the flags of Gardner and Knopoff: an event is a mainshock if and only if it is not in the
    window of a mainshock treated before; [covers j i]: event i is in the window of event j *)
Definition gk_flags (n : nat) (before covers : nat -> nat -> Prop) (main : nat -> Prop) : Prop :=
  forall i, (i < n)%nat -> (main i <-> forall j, (j < n)%nat -> before j i -> main j -> ~ covers j i).
(** the clusters: every event belongs to the cluster of exactly one mainshock, the first one
    that covers it *)
Definition gk_clusters (n : nat) (before covers : nat -> nat -> Prop) (main : nat -> Prop) (cluster : nat -> nat) : Prop :=
  (forall i, (i < n)%nat -> exists m, (m < n)%nat /\ main m /\ cluster m = cluster i /\ (m = i \/ before m i) /\ covers m i /\
      forall m', (m' < n)%nat -> main m' -> before m' m -> ~ covers m' i) /\
  (forall m m', (m < n)%nat -> (m' < n)%nat -> main m -> main m' -> cluster m = cluster m' -> m = m').
