(** * Specification vocabulary: numbers written as texts *)
From Coq Require Import ZArith List String Ascii Bool Reals.
Import ListNotations.
Open Scope string_scope.

(** digits and their text *)
Definition digit_char (d : nat) : ascii := ascii_of_nat (48 + d).
Fixpoint digits_text (ds : list nat) : string := match ds with [] => "" | d :: t => String (digit_char d) (digits_text t) end.
Definition all_digits (ds : list nat) : Prop := Forall (fun d => d < 10)%nat ds.
(** the number with these decimal digits *)
Definition digits_value (ds : list nat) : Z := fold_left (fun a d => 10 * a + Z.of_nat d)%Z ds 0%Z.

Inductive sgn := NoSign | Plus | Minus.
Definition sgn_text (s : sgn) : string := match s with NoSign => "" | Plus => "+" | Minus => "-" end.
Definition sgn_Z (s : sgn) : Z := match s with Minus => -1 | _ => 1 end.

(** a numeral: sign, digits before the point, digits after it (None: no point), and the exponent
    (capital E or not, sign, digits) *)
Record numeral := { n_sign : sgn; n_int : list nat; n_frac : option (list nat); n_exp : option (bool * sgn * list nat) }.
Definition frac_digits (n : numeral) : list nat := match n_frac n with Some f => f | None => [] end.
Definition numeral_text (n : numeral) : string :=
  sgn_text (n_sign n) ++ digits_text (n_int n) ++
  (match n_frac n with Some f => "." ++ digits_text f | None => "" end) ++
  (match n_exp n with Some (cap, s, ds) => (if cap then "E" else "e") ++ sgn_text s ++ digits_text ds | None => "" end).
Definition well_formed (n : numeral) : Prop :=
  all_digits (n_int n) /\ all_digits (frac_digits n) /\ app (n_int n) (frac_digits n) <> [] /\
  match n_exp n with Some (_, _, ds) => all_digits ds /\ (1 <= List.length ds <= 17)%nat | None => True end.
(** the number it denotes is mantissa * 10 ^ exponent *)
Definition mantissa (n : numeral) : Z := digits_value (app (n_int n) (frac_digits n)).
Definition exponent (n : numeral) : Z :=
  (match n_exp n with Some (_, s, ds) => sgn_Z s * digits_value ds | None => 0 end - Z.of_nat (List.length (frac_digits n)))%Z.
Definition value (n : numeral) : R := (IZR (sgn_Z (n_sign n) * mantissa n) * powerRZ 10 (exponent n))%R.
(** an integer: neither point nor exponent *)
Definition is_integer (n : numeral) : bool := match n_frac n, n_exp n with None, None => true | _, _ => false end.

(** white space around it *)
Definition white (c : ascii) : Prop := In (nat_of_ascii c) [9; 10; 11; 12; 13; 32]%nat.
Fixpoint all_white (s : string) : Prop := match s with EmptyString => True | String c t => white c /\ all_white t end.
Definition spells (t : string) (n : numeral) : Prop :=
  well_formed n /\ exists b1 b2, all_white b1 /\ all_white b2 /\ t = b1 ++ numeral_text n ++ b2.
(** infinity in its spellings, in small letters *)
Definition infinities := ["inf"; "+inf"; "-inf"; "infinity"; "+infinity"; "-infinity"].

(** the same word up to capital letters *)
Definition capital (c : ascii) : ascii := let n := nat_of_ascii c in if ((97 <=? n) && (n <=? 122))%nat then ascii_of_nat (n - 32) else c.
Inductive spelled_like : string -> string -> Prop :=
| like_nil : spelled_like "" ""
| like_same c t w : spelled_like t w -> spelled_like (String c t) (String c w)
| like_capital c t w : spelled_like t w -> spelled_like (String (capital c) t) (String c w).
(** number of digits of a numeral, before and after the point, leading zeros included *)
Definition digit_count (n : numeral) : nat := List.length (app (n_int n) (frac_digits n)).
