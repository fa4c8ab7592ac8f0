(** * Model of the conversion of the column time in Catalog.__init__, catalogs/catalog.py:186-192

    Times are numbers of nanoseconds since the start of year 1, [None] is NaT.  Modelled: entries
    that are missing, date objects without time zone, and texts.  Not modelled: offsets other than
    Z, columns of numbers. *)
From Coq Require Import ZArith List Bool String Ascii.
From Verif Require Import Base Utils_model Spec_Openquake.
Import ListNotations.
Open Scope Z_scope.

Inductive cell := CMissing | CDate (ns : Z) | CText (s : string).

(** the parser of pandas for format='ISO8601' (pandas np_datetime_strings.c, used by catalog.py:189-190),
    for the texts YYYY-MM-DD, T or blank, HH:MM:SS, a fraction (of which nine digits are read) and Z.
    Simplified: shorter texts such as dates without time are not accepted. *)
(** catalog.py:189-190 (pandas): [n] digits *)
Fixpoint digits (n : nat) (acc : Z) (s : string) : option (Z * string) :=
  match n with
  | O => Some (acc, s)
  | S n => match s with
           | String c t => match digit c with Some d => digits n (10 * acc + d) t | None => None end
           | EmptyString => None
           end
  end.
(** catalog.py:189-190 (pandas): one of these characters *)
Definition expect (ok : ascii -> bool) (s : string) : option string :=
  match s with String c t => if ok c then Some t else None | EmptyString => None end.
(** catalog.py:189-190 (pandas): the digits of the fraction; [scale] is the weight of the next one
    in nanoseconds (0 after the ninth) *)
Fixpoint fraction (scale acc : Z) (s : string) : Z * string :=
  match s with
  | String c t => match digit c with Some d => fraction (scale / 10) (acc + d * scale) t | None => (acc, s) end
  | EmptyString => (acc, s)
  end.
(** helper of the model: a step of the parser that may fail *)
Definition obind {A B} (o : option A) (f : A -> option B) : option B := match o with Some a => f a | None => None end.
(** catalog.py:189-190 (pandas): the time in nanoseconds and whether it is marked as UTC *)
Definition iso8601 (s : string) : option (Z * bool) :=
  obind (digits 4 0 s) (fun '(y, s) => obind (expect (ceqb "-") s) (fun s =>
  obind (digits 2 0 s) (fun '(mo, s) => obind (expect (ceqb "-") s) (fun s =>
  obind (digits 2 0 s) (fun '(d, s) => obind (expect (fun c => ceqb c "T" || ceqb c " ") s) (fun s =>
  obind (digits 2 0 s) (fun '(h, s) => obind (expect (ceqb ":") s) (fun s =>
  obind (digits 2 0 s) (fun '(mi, s) => obind (expect (ceqb ":") s) (fun s =>
  obind (digits 2 0 s) (fun '(se, s) =>
  obind (match expect (ceqb ".") s with
         | Some r => match r with String c _ => match digit c with Some _ => Some (fraction 100000000 0 r) | None => None end | EmptyString => None end
         | None => Some (0, s)
         end) (fun '(ns, s) =>
  obind (match s with EmptyString => Some false | String c EmptyString => if ceqb c "Z" then Some true else None | _ => None end) (fun utc =>
  match make_datetime y mo d h mi se 0 with
  | Ok dt => Some (1000 * microseconds (dt_year dt) (dt_month dt) (dt_day dt) (dt_hour dt) (dt_minute dt) (dt_second dt) 0 + ns, utc)
  | Err _ => None
  end))))))))))))).

(** pandas timestamps: 64 bits of nanoseconds around 1970; the least number is NaT *)
(** catalog.py:189-191 (pandas): OutOfBoundsDatetime *)
Definition stamp (ns : Z) : option Z :=
  let n := ns - 719162 * 86400000000000 in if (- 2 ^ 63 <? n) && (n <? 2 ^ 63) then Some ns else None.
(** catalog.py:189-190: one entry; the outer None is the exception (ValueError or its subclass
    OutOfBoundsDatetime), the flag is None for a missing entry *)
Definition convert_cell (c : cell) : option (option Z * option bool) :=
  match c with
  | CMissing => Some (None, None)
  | CDate ns => obind (stamp ns) (fun ns => Some (Some ns, Some false))
  | CText s => obind (iso8601 s) (fun '(ns, utc) => obind (stamp ns) (fun ns => Some (Some ns, Some utc)))
  end.
(** helper of the model: all entries, or the exception of the first that fails *)
Fixpoint convert_all (l : list cell) : option (list (option Z * option bool)) :=
  match l with
  | [] => Some []
  | c :: t => obind (convert_cell c) (fun x => obind (convert_all t) (fun r => Some (x :: r)))
  end.
(** catalog.py:192, utils/__init__.py:123-151: one entry in the fallback; a datetime has microseconds *)
Definition fallback_cell (c : cell) : res (option Z) :=
  match c with
  | CMissing => Ok None
  | CDate ns => Ok (Some ns)
  | CText s => let? d := robust_parse_datetime (DString s) in
               Ok (option_map (fun d => 1000 * microseconds (dt_year d) (dt_month d) (dt_day d) (dt_hour d) (dt_minute d) (dt_second d) (dt_micro d)) d)
  end.
(** catalog.py:192: apply *)
Fixpoint fallback_all (l : list cell) : res (list (option Z)) :=
  match l with [] => Ok [] | c :: t => let? x := fallback_cell c in let? r := fallback_all t in Ok (x :: r) end.
(** catalog.py:187-192.  If some times are marked as UTC and others are not, pandas returns a
    column of objects, and .dt raises AttributeError, which is not caught. *)
Definition time_column (l : list cell) : res (list (option Z)) :=
  match convert_all l with
  | Some r =>
      if existsb (fun x => match snd x with Some true => true | _ => false end) r
         && existsb (fun x => match snd x with Some false => true | _ => false end) r
      then Err AttributeError else Ok (map fst r)
  | None => fallback_all l
  end.
