(** * Specification vocabulary for paged downloads *)
From Coq Require Import ZArith List String.
Import ListNotations.

(** page of a list: at most [limit] elements from position [offset] (counted from 1) on *)
Definition page {E} (limit : option Z) (offset : option Z) (l : list E) : list E :=
  let l := match offset with Some o => skipn (Z.to_nat (o - 1)) l | None => l end in
  match limit with Some n => firstn (Z.to_nat n) l | None => l end.
(** number of batches of size b for n events: the ceiling of n / b, at least 1 *)
Definition batches (n b : Z) : Z := Z.max 1 ((n + b - 1) / b).
