(** * Num: the number operations the Python code uses, as an abstract record

    Every modelled function is written once, against this class.  No law is assumed:
    a theorem quantified over all [Num T] instances holds for IEEE doubles (with NaN,
    infinities and rounding) as well as for exact reals.  [nsum] is an operation of
    its own because numpy's pairwise summation order is not specified. *)
From Coq Require Import ZArith Bool List.
Import ListNotations.

Class Num (T : Type) := {
  ofZ : Z -> T;
  nadd : T -> T -> T;
  nsub : T -> T -> T;
  nmul : T -> T -> T;
  ndiv : T -> T -> T;
  nopp : T -> T;
  nabs : T -> T;
  nleb : T -> T -> bool;
  nltb : T -> T -> bool;
  neqb : T -> T -> bool;
  nfloorZ : T -> option Z;     (* floor as an integer; None for NaN and infinities *)
  nsum : list T -> T;          (* np.sum *)
  nsqrt : T -> T;
  nln : T -> T;
  nexp : T -> T;
  nlog10 : T -> T;
  npow10 : T -> T;             (* 10 ** x *)
  nsin : T -> T;
  ncos : T -> T;
  natan2 : T -> T -> T;        (* np.arctan2(y, x) *)
  npi : T;
  nnan : T;
  ninf : T;
  nisnan : T -> bool;
  nisinf : T -> bool
}.

Declare Scope num_scope.
Delimit Scope num_scope with num.
Bind Scope num_scope with Num.
Infix "+" := nadd : num_scope.
Infix "-" := nsub : num_scope.
Infix "*" := nmul : num_scope.
Infix "/" := ndiv : num_scope.
Infix "<=?" := nleb : num_scope.
Infix "<?" := nltb : num_scope.
Infix "=?" := neqb : num_scope.
Notation "x >=? y" := (nleb y x) (at level 70, only parsing) : num_scope.
Notation "x >? y" := (nltb y x) (at level 70, only parsing) : num_scope.

Section NumDefs.
  Context {T : Type} {N : Num T}.
  Local Open Scope num_scope.

  (** decimal literal [m * 10^(-k)], e.g. [lit 1 12] is 1e-12 *)
  Definition lit (m : Z) (k : nat) : T := ofZ m / ofZ (10 ^ Z.of_nat k)%Z.
  Definition zero : T := ofZ 0.
  Definition one : T := ofZ 1.
  Definition two : T := ofZ 2.
  Definition half : T := one / two.
  Definition ofnat (n : nat) : T := ofZ (Z.of_nat n).

  Definition nfloor (x : T) : T := match nfloorZ x with Some z => ofZ z | None => x end.
  Definition nceilZ (x : T) : option Z :=
    match nfloorZ (nopp x) with Some z => Some (- z)%Z | None => None end.
  Definition nceil (x : T) : T := match nceilZ x with Some z => ofZ z | None => x end.

  (** np.minimum / np.maximum (NaN propagates) and np.min / np.max of a non-empty list *)
  Definition nmin2 (x y : T) : T :=
    if nisnan x then x else if nisnan y then y else if y <? x then y else x.
  Definition nmax2 (x y : T) : T :=
    if nisnan x then x else if nisnan y then y else if x <? y then y else x.
  Definition amin (x : T) (l : list T) : T := fold_left nmin2 l x.
  Definition amax (x : T) (l : list T) : T := fold_left nmax2 l x.

  (** np.mean of a list: NaN for the empty list (numpy: 0/0 with a RuntimeWarning) *)
  Definition nmean (l : list T) : T := nsum l / ofnat (length l).

  (** order used by np.sort / np.argsort / np.unique: NaN last *)
  Definition nsort_le (x y : T) : bool :=
    if nisnan y then true else if nisnan x then false else x <=? y.

  (** np.isclose (a, b, rtol, atol), equal_nan=False *)
  Definition nfinite (x : T) : bool := negb (nisnan x) && negb (nisinf x).
  Definition isclose (a b rtol atol : T) : bool :=
    if nfinite a && nfinite b then nabs (a - b) <=? (atol + rtol * nabs b) else a =? b.

  Definition square (x : T) : T := x * x.
End NumDefs.

(** A decimal literal as Python's [Decimal(str(x)).as_tuple()] sees it:
    mantissa * 10^expo. *)
Record dec := mkdec { mant : Z; expo : Z }.
Definition dec_val {T} {N : Num T} (d : dec) : T :=
  if (expo d <? 0)%Z then ndiv (ofZ (mant d)) (ofZ (10 ^ (- expo d)))
  else ofZ (mant d * 10 ^ expo d).

(** [repr] of the float 10**p for an integer p: '0.1', '1e-05', '1.0', '100.0',
    '1e+16' as (mantissa, exponent). *)
Definition dec_pow10 (p : Z) : dec :=
  if (p <? 0)%Z then mkdec 1 p
  else if (p <? 16)%Z then mkdec (10 ^ (p + 1)) (-1) else mkdec 1 p.
