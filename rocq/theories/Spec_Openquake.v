(** * Calendar times (no reference to the conversion) *)
From Coq Require Import ZArith List Bool Reals.
From Verif Require Import Spec_Utils Utils_model.
Import ListNotations.
Open Scope Z_scope.

(** the number of days before a year, before a month of it, and up to a date (1 January of year 1 is 1) *)
Definition days_before_year (y : Z) : Z := 365 * (y - 1) + (y - 1) / 4 - (y - 1) / 100 + (y - 1) / 400.
Fixpoint days_before_month (y : Z) (n : nat) : Z := match n with O => 0 | S k => days_before_month y k + days_in_month y (Z.of_nat n) end.
Definition ordinal (y mo d : Z) : Z := days_before_year y + days_before_month y (Z.to_nat (mo - 1)) + d.
(** a time as a number of microseconds since the start of year 1 *)
Definition microseconds (y mo d h mi s us : Z) : Z := (((ordinal y mo d - 1) * 24 + h) * 60 + mi) * 60000000 + s * 1000000 + us.
(** pandas timestamps in nanoseconds: 64 bits around 1970, day 719163 *)
Definition representable (us : Z) : Prop := - 2 ^ 63 < (us - 719162 * 86400000000) * 1000 < 2 ^ 63.
(** midnight before a time *)
Definition midnight (us : Z) : Z := us / 86400000000 * 86400000000.

(** an event time in an OpenQuake catalogue; seconds with a fraction *)
Record oq_time := mkoq { oq_year : Z; oq_month : Z; oq_day : Z; oq_hour : Z; oq_minute : Z; oq_second : R }.
Definition oq_date (o : oq_time) : Z := microseconds (oq_year o) (oq_month o) (oq_day o) 0 0 0 0.
Definition oq_valid (o : oq_time) : Prop :=
  valid_date (oq_year o) (oq_month o) (oq_day o) /\ 0 <= oq_hour o <= 23 /\ 0 <= oq_minute o <= 59 /\ (0 <= oq_second o < 60)%R.
(** its value in microseconds *)
Definition oq_value (o : oq_time) : R :=
  (IZR (microseconds (oq_year o) (oq_month o) (oq_day o) (oq_hour o) (oq_minute o) 0 0) + oq_second o * 1000000)%R.
