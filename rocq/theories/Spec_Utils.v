(** * Specification of the utilities: what the English properties say, without the model's code *)
From Coq Require Import ZArith List Bool String Ascii Reals.
From Verif Require Import Base.
Import ListNotations.
Open Scope string_scope.

(** ** histories of option accesses *)
Inductive option_op (V : Type) := SetOption (k : string) (v : V) | GetOption (k : string).
Arguments SetOption {V}. Arguments GetOption {V}.
(** [v] is the last value given to key [k] in the history, [d] if there is none *)
Definition last_value {V} (k : string) (d : V) (h : list (option_op V)) (v : V) : Prop :=
  (v = d /\ forall w, ~ In (SetOption k w) h) \/
  (exists before after, h = app before (SetOption k v :: after) /\ forall w, ~ In (SetOption k w) after).

(** ** dates as text *)
Definition digit_char (d : Z) : ascii := ascii_of_nat (48 + Z.to_nat d).
(** [v] in decimal with exactly [w] digits *)
Fixpoint numeral (w : nat) (v : Z) : string :=
  match w with O => "" | S w => numeral w (v / 10) ++ String (digit_char (v mod 10)) "" end.
(** the number fits in [w] digits *)
Definition fits (w : nat) (v : Z) : Prop := (0 <= v < 10 ^ Z.of_nat w)%Z.
(** e.g. 2020-1-01T5:07:00 for the widths 4 1 2 1 2 2 *)
Definition date_text (wy wmo wd wh wmi ws : nat) (y mo d h mi s : Z) : string :=
  numeral wy y ++ "-" ++ numeral wmo mo ++ "-" ++ numeral wd d ++ "T" ++ numeral wh h ++ ":" ++ numeral wmi mi ++ ":" ++ numeral ws s.
(** ISO 8601 *)
Definition iso_text := date_text 4 2 2 2 2 2.
(** the Gregorian calendar *)
Definition leap_year (y : Z) : Prop := ((4 | y) /\ (~ (100 | y) \/ (400 | y)))%Z.
Definition month_length (y mo n : Z) : Prop :=
  (mo = 2 /\ (leap_year y /\ n = 29 \/ ~ leap_year y /\ n = 28) \/
   In mo [4; 6; 9; 11] /\ n = 30 \/ In mo [1; 3; 5; 7; 8; 10; 12] /\ n = 31)%Z.
Definition valid_date (y mo d : Z) : Prop := (1 <= y <= 9999 /\ exists n, month_length y mo n /\ 1 <= d <= n)%Z.
Definition valid_time (h mi s : Z) : Prop := (0 <= h <= 23 /\ 0 <= mi <= 59 /\ 0 <= s <= 59)%Z.

(** ** geometry *)
Open Scope R_scope.
(** the point lies in the rectangle *)
Definition in_rect (b : R * R * R * R) (p : R * R) : Prop :=
  let '(minx, miny, maxx, maxy) := b in minx <= fst p <= maxx /\ miny <= snd p <= maxy.
(** the smallest rectangle containing all points *)
Definition bounding_rect (ring : list (R * R)) (b : R * R * R * R) : Prop :=
  Forall (in_rect b) ring /\
  forall minx miny maxx maxy, Forall (in_rect (minx, miny, maxx, maxy)) ring ->
    let '(a, c, d, e) := b in minx <= a /\ miny <= c /\ d <= maxx /\ e <= maxy.
