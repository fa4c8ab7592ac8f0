(** * Model of the conversion of the numeric columns in Catalog.__init__, catalogs/catalog.py:173-184

    [pd.to_numeric(self[num], errors='coerce')].  pandas is modelled from its source
    (_libs/lib.pyx maybe_convert_numeric, _libs/src/parse_helper.h floatify,
    _libs/src/parser/tokenizer.c precise_xstrtod), for entries that are texts, floats, integers,
    booleans-free and missing.  Characters beyond ASCII belong to no number.
    Simplified: the exponent of a text is an unbounded integer (a C int in pandas). *)
From Coq Require Import ZArith List Bool String Ascii.
From Verif Require Import Base Num Utils_model.
Import ListNotations.

(** ** texts *)
(** catalog.py:184 (tokenizer.c isspace_ascii): tab, line feed, vertical tab, form feed, carriage return, blank *)
Definition blank (c : ascii) : bool := let n := nat_of_ascii c in ((9 <=? n) && (n <=? 13) || (n =? 32))%nat.
(** catalog.py:184 (tokenizer.c precise_xstrtod: "Skip leading whitespace", "Skip trailing whitespace") *)
Fixpoint skip_blanks (s : string) : string :=
  match s with String c t => if blank c then skip_blanks t else s | EmptyString => s end.
(** catalog.py:184 (tokenizer.c precise_xstrtod: "Handle optional sign"): the sign and the rest *)
Definition sign (s : string) : bool * string :=
  match s with
  | String c t => if ceqb c "-" then (true, t) else if ceqb c "+" then (false, t) else (false, s)
  | EmptyString => (false, s)
  end.
(** catalog.py:184 (tokenizer.c precise_xstrtod: max_digits) *)
Definition max_digits : nat := 17.

Section Numeric.
  Context {T : Type} {N : Num T}.
  Local Open Scope num_scope.

  (** catalog.py:184 (tokenizer.c precise_xstrtod: "Process string of digits"): the number read so far, how many
      digits were used, and by how many places the unused ones shift it *)
  Fixpoint int_digits (s : string) (number : T) (nd : nat) (exponent : Z) : T * nat * Z * string :=
    match s with
    | String c t =>
        match digit c with
        | Some d => if (nd <? max_digits)%nat then int_digits t (number * ofZ 10 + ofZ d) (S nd) exponent
                    else int_digits t number nd (exponent + 1)%Z
        | None => (number, nd, exponent, s)
        end
    | EmptyString => (number, nd, exponent, s)
    end.
  (** catalog.py:184 (tokenizer.c precise_xstrtod: "Process decimal part"; "Consume extra decimal digits") *)
  Fixpoint dec_digits (s : string) (number : T) (nd : nat) (exponent : Z) : T * nat * Z * string :=
    match s with
    | String c t =>
        match digit c with
        | Some d => if (nd <? max_digits)%nat then dec_digits t (number * ofZ 10 + ofZ d) (S nd) (exponent - 1)%Z
                    else dec_digits t number nd exponent
        | None => (number, nd, exponent, s)
        end
    | EmptyString => (number, nd, exponent, s)
    end.
  (** catalog.py:184 (tokenizer.c precise_xstrtod: "Process an exponent string": its digits, at most max_digits) *)
  Fixpoint exp_digits (s : string) (n : Z) (nd : nat) : Z * nat * string :=
    match s with
    | String c t =>
        match digit c with
        | Some d => if (nd <? max_digits)%nat then exp_digits t (10 * n + d)%Z (S nd) else (n, nd, s)
        | None => (n, nd, s)
        end
    | EmptyString => (n, nd, s)
    end.
  (** catalog.py:184 (tokenizer.c precise_xstrtod: the table e of the powers of ten, and the scaling); None is
      the error ERANGE of a result that is too large *)
  Definition scale (number : T) (exponent : Z) : option T :=
    if (308 <? exponent)%Z then None
    else let r := if (0 <? exponent)%Z then number * ofZ (10 ^ exponent)%Z
                  else if (exponent <? -616)%Z then zero
                  else if (exponent <? -308)%Z then number / ofZ (10 ^ (- 308 - exponent))%Z / ofZ (10 ^ 308)%Z
                  else number / ofZ (10 ^ (- exponent))%Z in
         if nisinf r then None else Some r.
  (** catalog.py:184 (tokenizer.c precise_xstrtod, to_double): the number and whether the text is one of an integer; None
      if the text is not a number to its end or too large *)
  Definition xstrtod (s : string) : option (T * bool) :=
    let '(neg, s) := sign (skip_blanks s) in
    let '(number, nd, ex, s) := int_digits s zero 0 0%Z in
    let '(number, nd, ex, s, int1) :=
      match s with
      | String c t => if ceqb c "." then (dec_digits t number nd ex, false) else (number, nd, ex, s, true)
      | EmptyString => (number, nd, ex, s, true)
      end in
    if (nd =? 0)%nat then None
    else
      let number := if neg then nopp number else number in
      let r :=
        match s with
        | String c t =>
            if ceqb c "e" || ceqb c "E" then
              let '(eneg, t) := sign t in
              let '(n, k, t) := exp_digits t 0%Z 0 in
              if (k =? 0)%nat then None else Some ((if eneg then ex - n else ex + n)%Z, false, t)
            else Some (ex, int1, s)
        | EmptyString => Some (ex, int1, s)
        end in
      match r with
      | None => None
      | Some (ex, is_int, s) =>
          match scale number ex with
          | None => None
          | Some v => match skip_blanks s with EmptyString => Some (v, is_int) | _ => None end
          end
      end.

  (** catalog.py:184 (parse_helper.h floatify: strcasecmp) *)
  Definition lower (c : ascii) : ascii :=
    let n := nat_of_ascii c in if ((65 <=? n) && (n <=? 90))%nat then ascii_of_nat (n + 32) else c.
  (** catalog.py:184 (parse_helper.h floatify: strcasecmp) *)
  Fixpoint lower_text (s : string) : string := match s with String c t => String (lower c) (lower_text t) | EmptyString => "" end.
  (** catalog.py:184 (parse_helper.h floatify): inf, infinity with a sign; None is the parsing error *)
  Definition floatify (s : string) : option (T * bool) :=
    match xstrtod s with
    | Some r => Some r
    | None =>
        let l := lower_text s in
        if String.eqb l "inf" || String.eqb l "+inf" || String.eqb l "infinity" || String.eqb l "+infinity" then Some (ninf, false)
        else if String.eqb l "-inf" || String.eqb l "-infinity" then Some (nopp ninf, false)
        else None
    end.
  (** catalog.py:184 (lib.pyx: int(val) of a text that floatify takes for an integer) *)
  Fixpoint int_value (s : string) (acc : Z) : Z :=
    match s with String c t => match digit c with Some d => int_value t (10 * acc + d)%Z | None => acc end | EmptyString => acc end.
  (** catalog.py:184 (lib.pyx: int(val)) *)
  Definition to_int (s : string) : Z := let '(neg, t) := sign (skip_blanks s) in if neg then (- int_value t 0)%Z else int_value t 0%Z.

  (** ** columns *)
  (** catalog.py:181-184: an entry of the column *)
  Inductive cell := CText (s : string) | CFloat (x : T) | CInt (z : Z) | CMissing.
  (** catalog.py:184: the converted column, of integers or of floats *)
  Inductive column := Ints (l : list Z) | Floats (l : list T).
  (** catalog.py:184 (lib.pyx maybe_convert_numeric with errors='coerce'): an entry as a float, and as an integer if it is one *)
  Definition convert (c : cell) : T * option Z :=
    match c with
    | CFloat x => (x, None)
    | CInt z => (ofZ z, Some z)
    | CMissing => (nnan, None)
    | CText EmptyString => (nnan, None)
    | CText s => match floatify s with
                 | Some (v, true) => (v, Some (to_int s))
                 | Some (v, false) => (v, None)
                 | None => (nnan, None)
                 end
    end.
  (** catalog.py:184 (lib.pyx Seen, maybe_convert_numeric): 64-bit integers, unsigned if none is negative *)
  Fixpoint all_some (l : list (option Z)) : option (list Z) :=
    match l with
    | [] => Some []
    | Some z :: t => match all_some t with Some r => Some (z :: r) | None => None end
    | None :: _ => None
    end.
  (** catalog.py:184 (lib.pyx Seen.saw_int, "Integer out of range") *)
  Definition fits (l : list Z) : bool :=
    forallb (fun z => (- 2 ^ 63 <=? z) && (z <? 2 ^ 64))%Z l &&
    negb (existsb (fun z => z <? 0)%Z l && existsb (fun z => 2 ^ 63 <=? z)%Z l).
  (** catalog.py:184 [pd.to_numeric] *)
  Definition to_numeric (l : list cell) : column :=
    let r := map convert l in
    match all_some (map snd r) with
    | Some zs => if fits zs then Ints zs else Floats (map fst r)
    | None => Floats (map fst r)
    end.
End Numeric.
Arguments cell : clear implicits.
Arguments column : clear implicits.
