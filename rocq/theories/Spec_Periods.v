(** * Specification of the estimators for unequal completeness periods, over the reals

    A table row is (magnitude, year of completeness), an event is (magnitude, year). *)
From Coq Require Import Reals Lra List ZArith Sorted.
From Verif Require Import Base Num XR RList Spec_BValue.
Import ListNotations.
Open Scope R_scope.

Definition rising_mags (tb : list (R * R)) : Prop := StronglySorted (fun r r' => fst r <= fst r') tb.
Definition falling_years (tb : list (R * R)) : Prop := StronglySorted (fun r r' => snd r' < snd r) tb.
(** the last year of observation: the given one, or the latest year of the catalogue *)
Definition last_year_is (given : option R) (years : list R) (ly : R) : Prop :=
  (given = Some ly /\ ly <> 0) \/ (given = None /\ In ly years /\ forall y, In y years -> y <= ly).

(** ** Kijko and Smit *)
(** the period of a year: the first row (years fall) that has begun *)
Fixpoint period_of (tb : list (R * R)) (y : R) : option (R * R) :=
  match tb with [] => None | r :: t => if Rle_dec (snd r) y then Some r else period_of t y end.
(** the events that are used, with the row of their period *)
Definition used_of (tb : list (R * R)) (e : R * R) : list ((R * R) * (R * R)) :=
  match period_of tb (snd e) with Some r => if Rlt_dec (fst r) (fst e) then [(e, r)] else [] | None => [] end.
Definition used (tb ev : list (R * R)) : list ((R * R) * (R * R)) := flat_map (used_of tb) ev.
Definition excess_mag (p : (R * R) * (R * R)) : R := fst (fst p) - fst (snd p).
(** joint density of the used magnitudes if excess magnitudes are exponential *)
Definition pooled_likelihood (tb ev : list (R * R)) (beta : R) : R :=
  Rprod (map (fun p => beta * exp (- beta * excess_mag p)) (used tb ev)).
Definition every_period_has_events (tb ev : list (R * R)) : Prop :=
  forall r, In r tb -> exists e, In (e, r) (used tb ev).
(** lengths of the periods: until the previous row's year, the first one until [until] *)
Fixpoint with_span (until : R) (tb : list (R * R)) : list (R * (R * R)) :=
  match tb with [] => [] | r :: t => (until - snd r, r) :: with_span (snd r) t end.
(** expected number of complete events of a period, for a rate [lambda] above magnitude [m0] *)
Definition expected (beta m0 lambda : R) (sr : R * (R * R)) : R := lambda * (fst sr * exp (- beta * (fst (snd sr) - m0))).
Definition row_eqb (r r' : R * R) : bool := if Req_EM_T (fst r) (fst r') then if Req_EM_T (snd r) (snd r') then true else false else false.
Definition count_of (tb ev : list (R * R)) (r : R * R) : nat := List.length (filter (fun p => row_eqb (snd p) r) (used tb ev)).
(** probability of the observed numbers of complete events, Poisson in every period *)
Definition poisson (mu : R) (n : nat) : R := exp (- mu) * mu ^ n / INR (fact n).
Definition rate_likelihood (tb ev : list (R * R)) (ly beta m0 lambda : R) : R :=
  Rprod (map (fun sr => poisson (expected beta m0 lambda sr) (count_of tb ev (snd sr))) (with_span ly tb)).

(** ** Weichert *)
(** year of completeness of a magnitude: that of the last row (magnitudes rise) below it *)
Definition start_of (tb : list (R * R)) (m : R) : option R :=
  option_map snd (find (fun r => rlt (fst r) m) (rev tb)).
Definition counts (tb : list (R * R)) (e : R * R) : bool :=
  match start_of tb (fst e) with Some y => rlt 0 y && rle y (snd e) | None => false end.
(** left edge of the bin of a magnitude; bins start at [lo] *)
Definition bin_left (lo d m : R) : R := lo + IZR (Int_part ((m - lo) / d)) * d.
Definition lowest (tb : list (R * R)) : R := match tb with [] => 0 | r :: _ => fst r end.
(** the cell of an event: label of its magnitude bin, year of completeness *)
Definition cell_of (label : R -> R) (tb : list (R * R)) (d : R) (e : R * R) : R * R :=
  (label (bin_left (lowest tb) d (fst e)), match start_of tb (fst e) with Some y => y | None => 0 end).
Definition in_bins (tb : list (R * R)) (mag_max d : R) (e : R * R) : Prop :=
  bin_left (lowest tb) d (fst e) + d < mag_max + 1 / 100.
(** relative weight of a cell: observation time times exp(-beta * magnitude of the bin centre) *)
Definition cell_weight (ly d beta : R) (k : R * R) : R := (ly - snd k) * exp (- beta * (fst k + d / 2)).
(** probability of the cells of the counted events, given that they lie in [cells] *)
Definition cell_likelihood (cells : list (R * R)) (cell : R * R -> R * R) (ly d : R) (evs : list (R * R)) (beta : R) : R :=
  Rprod (map (fun e => cell_weight ly d beta (cell e) / Rsum (map (cell_weight ly d beta) cells)) evs).
Definition unique_maximiser (f : R -> R) (x : R) : Prop := forall y, y <> x -> f y < f x.
