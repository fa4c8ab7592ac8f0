(** * Times of events as text (no reference to the parsers) *)
From Coq Require Import ZArith List Bool String Ascii.
From Verif Require Import Base Utils_model Spec_Utils Spec_Openquake.
Import ListNotations.
Open Scope Z_scope.

(** a calendar time with a fraction of a second of [w] digits, [0 <= w <= 9] *)
Record stated := mkst { st_y : Z; st_mo : Z; st_d : Z; st_h : Z; st_mi : Z; st_s : Z; st_w : nat; st_frac : Z }.
Definition st_valid (t : stated) : Prop :=
  valid_date (st_y t) (st_mo t) (st_d t) /\ valid_time (st_h t) (st_mi t) (st_s t) /\
  (st_w t <= 9)%nat /\ fits (st_w t) (st_frac t).
(** the whole second and the instant, in nanoseconds since the start of year 1 *)
Definition whole_second (t : stated) : Z := 1000 * microseconds (st_y t) (st_mo t) (st_d t) (st_h t) (st_mi t) (st_s t) 0.
Definition instant (t : stated) : Z := whole_second t + st_frac t * 10 ^ (9 - Z.of_nat (st_w t)).
(** nanoseconds that fit in a pandas timestamp: 64 bits around 1970 *)
Definition in_range (ns : Z) : Prop := - 2 ^ 63 < ns - 719162 * 86400000000000 < 2 ^ 63.

Open Scope string_scope.
(** the text: date, T or a blank, time of day, fraction if any, Z if it is marked as UTC *)
Definition time_text (sep : ascii) (t : stated) (utc : bool) : string :=
  numeral 4 (st_y t) ++ "-" ++ numeral 2 (st_mo t) ++ "-" ++ numeral 2 (st_d t) ++ String sep "" ++
  numeral 2 (st_h t) ++ ":" ++ numeral 2 (st_mi t) ++ ":" ++ numeral 2 (st_s t) ++
  (match st_w t with O => "" | w => "." ++ numeral w (st_frac t) end) ++ (if utc then "Z" else "").

(** one entry of the column: missing, a date object, or a text *)
Inductive entry := Missing | Given (ns : Z) | Text (sep : ascii) (t : stated).
Definition entry_ok (e : entry) : Prop :=
  match e with Missing => True | Given _ => True | Text sep t => (sep = "T" \/ sep = " ")%char /\ st_valid t end.
(** what it states *)
Definition meant (e : entry) : option Z := match e with Missing => None | Given ns => Some ns | Text _ t => Some (instant t) end.
(** the same without the fraction of a second, if it is a text *)
Definition to_the_second (e : entry) : option Z := match e with Missing => None | Given ns => Some ns | Text _ t => Some (whole_second t) end.
Definition entry_in_range (e : entry) : Prop := forall ns, meant e = Some ns -> in_range ns.
Definition with_T (e : entry) : Prop := match e with Text sep _ => sep = "T"%char | _ => True end.
