(** * Model of seismostats/catalogs/catalog.py:305-434 (to_openquake, from_openquake)

    Floating point numbers are real numbers rounded to IEEE double precision (round to nearest,
    ties to even).  Times are integers: nanoseconds since the start of year 1.  The class
    openquake...Catalogue is taken to keep the columns it is given.  Columns hold known values. *)
From Coq Require Import ZArith List Bool String Reals.
From Flocq Require Import Core.
From Verif Require Import Base Utils_model Spec_Openquake.
Import ListNotations.
Open Scope Z_scope.

(** rounding to double precision *)
Definition rnd (x : R) : R := round radix2 (FLT_exp (-1074) 53) ZnearestE x.

(** ** Columns *)
(** catalog.py:46-47 *)
Definition pd_time_cols := ["year"; "month"; "day"; "hour"; "minute"; "second"; "microsecond"]%string.
(** helper of the model: data[c] = v adds a key once (catalog.py:418-433) *)
Definition add (c : string) (l : list string) : list string := if mem c l then l else app l [c].
(** 384-385 and 415-434: the columns of the result; no rows: no columns at all *)
Definition oq_columns (rows : nat) (columns : list string) : res (list string) :=
  if check_required_cols columns ["longitude"; "latitude"; "depth"; "time"; "magnitude"]%string then
    Ok (if (rows =? 0)%nat then [] else fold_left (fun l c => add c l) pd_time_cols (add "eventID" columns))
  else Err AttributeError.
(** 356-380: the columns of the catalogue made from columns with these lengths; 40-41, 160: the
    columns of an empty catalogue.  ValueError from pandas if the lengths differ, KeyError if a
    time column is missing *)
Definition catalog_columns := ["longitude"; "latitude"; "depth"; "time"; "magnitude"; "magnitude_type"]%string.
(** catalog.py:359-380 *)
Definition from_columns (keep_time_cols : bool) (data : list (string * nat)) : res (list string) :=
  let length := fold_right Nat.max O (map snd data) in
  if (length =? 0)%nat then Ok catalog_columns
  else
    let kept := filter (fun p => negb (snd p =? 0)%nat) data in
    if negb (forallb (fun p => (snd p =? length)%nat) kept) then Err ValueError
    else
      let names := map fst kept in
      if negb (forallb (fun c => mem c names) ["year"; "month"; "day"; "hour"; "minute"; "second"]%string) then Err KeyError
      else
        let all := add "time" (add "microsecond" names) in
        Ok (if keep_time_cols then all else filter (fun c => negb (mem c pd_time_cols)) all).

(** ** Times *)
(** time.dt.year, ...: the date with a given day number, found by counting *)
(** catalog.py:430-432 *)
Definition next_date (ymd : Z * Z * Z) : Z * Z * Z :=
  let '(y, mo, d) := ymd in
  if d <? days_in_month y mo then (y, mo, d + 1) else if mo <? 12 then (y, mo + 1, 1) else (y + 1, 1, 1).
Definition date_of (days : Z) : Z * Z * Z := Z.iter days next_date (1, 1, 1).
(** 429-433 *)
Definition to_time (t : Z) : oq_time :=
  let us := t / 1000 in
  let '(y, mo, d) := date_of (us / 86400000000) in
  let r := us mod 86400000000 in
  mkoq y mo d (r / 3600000000) (r / 60000000 mod 60) (rnd (IZR (r / 1000000 mod 60) + rnd (IZR (r mod 1000000) / 1000000))).
(** 363-366: the microseconds of a number of seconds ([x % 1] is exact), and the whole seconds *)
Definition micro_of (x : R) : Z := ZnearestE (rnd ((x - IZR (Zfloor x)) * 1000000)).
(** catalog.py:370: astype(np.int32) *)
Definition whole_of (x : R) : Z := Ztrunc x.
(** 368: pd.to_datetime of the columns; None: ValueError (no such date, or out of bounds).  pandas
    parses the text of year*10000+month*100+day with the format %Y%m%d: this is modelled for years
    with four digits and months and days with at most two.  Hours, minutes and seconds are added as
    durations, without a check *)
Definition in_bounds (us : Z) : bool := let n := (us - 719162 * 86400000000) * 1000 in (- 2 ^ 63 <? n) && (n <? 2 ^ 63).
(** catalog.py:352-358, 372: dates that datetime and pandas accept *)
Definition is_date (y mo d : Z) : bool := (1 <=? y) && (y <=? 9999) && (1 <=? mo) && (mo <=? 12) && (1 <=? d) && (d <=? days_in_month y mo).
Definition assemble (o : oq_time) : option Z :=
  let us := microseconds (oq_year o) (oq_month o) (oq_day o) (oq_hour o) (oq_minute o) (whole_of (oq_second o)) (micro_of (oq_second o)) in
  if is_date (oq_year o) (oq_month o) (oq_day o) && in_bounds (oq_date o) && in_bounds us then Some us else None.
(** 345-351: datetime(row.year, ..., row.second) *)
Definition convert (o : oq_time) : res Z :=
  let? dt := make_datetime (oq_year o) (oq_month o) (oq_day o) (oq_hour o) (oq_minute o) (whole_of (oq_second o)) 0 in
  Ok (microseconds (dt_year dt) (dt_month dt) (dt_day dt) (dt_hour dt) (dt_minute dt) (dt_second dt) (dt_micro dt)).
(** helpers of the model: a function applied to every row, failing if one row fails (catalog.py:372, 376) *)
Fixpoint all_some {A B} (f : A -> option B) (l : list A) : option (list B) :=
  match l with [] => Some [] | x :: t => match f x, all_some f t with Some y, Some r => Some (y :: r) | _, _ => None end end.
(** helpers of the model: a function applied to every row, failing if one row fails (catalog.py:372, 376) *)
Fixpoint all_ok {A B} (f : A -> res B) (l : list A) : res (list B) :=
  match l with [] => Ok [] | x :: t => let? y := f x in let? r := all_ok f t in Ok (y :: r) end.
(** 367-373: the column time in microseconds.  If every column holds numbers and some of them
    are floating point, apply(axis=1) hands floating point numbers to datetime: TypeError *)
Definition from_times (all_numbers : bool) (rows : list oq_time) : res (list Z) :=
  match all_some assemble rows with
  | Some l => Ok l
  | None => if all_numbers then Err TypeError else all_ok convert rows
  end.
