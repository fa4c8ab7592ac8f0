(** * Reading QuakeML from text: seismostats/io/parser.py:282-356

    [parse_quakeml_file], [parse_quakeml] and [parse_quakeml_response] hand the text to Python's
    xml.sax, whose reader (expat) makes the callbacks modelled in QuakeML_model.v, or raises
    SAXParseException.  The reader is modelled here character by character.  A text is a sequence
    of code points below 256 (decoded: a cut inside the bytes of one character is not modelled).

    Simplifications.  Not modelled (the answer is [Beyond]): document type declarations, references
    to characters from number 256 on.  The declaration at the start, <? ... ?>, is skipped without
    checking its contents.  The namespace feature of xml.sax is off by default.  When the text is at
    fault, a text node that is still open is not passed to the handler.  Comments and CDATA
    sections do not interrupt a text (xml.sax sets no handlers for them); a processing instruction
    does (it sets one, which does nothing: parser.py:219-273 does not override it). *)
From Coq Require Import List Bool String Ascii ZArith QArith.
From Verif Require Import Base Dict QuakeML_model.
Import ListNotations.
Open Scope string_scope.

(** ** characters (parser.py:300, 327, 350: the XML 1.0 rules the reader enforces) *)
(** white space in markup (there are no carriage returns, see [norm]): parser.py:300, 327, 350 *)
Definition xspace (c : ascii) : bool := let n := nat_of_ascii c in ((n =? 32) || (n =? 9) || (n =? 10))%nat.
(** characters XML does not allow: parser.py:300, 327, 350 *)
Definition illegal (c : ascii) : bool := (nat_of_ascii c <? 32)%nat && negb (xspace c).
(** the first character of a name: parser.py:300, 327, 350 *)
Definition name_start (c : ascii) : bool :=
  let n := nat_of_ascii c in
  ((65 <=? n) && (n <=? 90) || (97 <=? n) && (n <=? 122) || (n =? 95) || (n =? 58) || (192 <=? n) && negb (n =? 215) && negb (n =? 247))%nat.
(** the other characters of a name: parser.py:300, 327, 350 *)
Definition name_char (c : ascii) : bool :=
  let n := nat_of_ascii c in (name_start c || (48 <=? n) && (n <=? 57) || (n =? 45) || (n =? 46) || (n =? 183))%nat.
(** the characters with a meaning of their own: parser.py:300, 327, 350 *)
Definition LT := "<"%char. Definition GT := ">"%char. Definition AMP := "&"%char. Definition SEMI := ";"%char. Definition EQ := "="%char.
Definition SLASH := "/"%char. Definition BANG := "!"%char. Definition QM := "?"%char. Definition HASH := "#"%char. Definition RB := "]"%char.
Definition QUOT := ascii_of_nat 34. Definition APOS := "'"%char. Definition CR := ascii_of_nat 13. Definition LF := ascii_of_nat 10.
Definition LB := "["%char. Definition DASH := "-"%char.
(** the entities every document knows: parser.py:300, 327, 350 *)
Definition entity (n : string) : option ascii :=
  if n =? "amp" then Some AMP else if n =? "lt" then Some LT else if n =? "gt" then Some GT
  else if n =? "quot" then Some QUOT else if n =? "apos" then Some APOS else None.
(** the line breaks CR LF and CR become LF before anything else; [cr]: after a CR.  parser.py:300, 327, 350 *)
Fixpoint norm (cr : bool) (t : string) : string :=
  match t with
  | EmptyString => ""
  | String c t =>
      if Ascii.eqb c CR then String LF (norm true t)
      else if cr && Ascii.eqb c LF then norm false t
      else String c (norm false t)
  end.
(** decimal and hexadecimal digits: parser.py:300, 327, 350 *)
Definition dec_digit (c : ascii) : option Z := let n := nat_of_ascii c in if ((48 <=? n) && (n <=? 57))%nat then Some (Z.of_nat n - 48)%Z else None.
(** parser.py:300, 327, 350 *)
Definition hex_digit (c : ascii) : option Z :=
  let n := nat_of_ascii c in
  if ((48 <=? n) && (n <=? 57))%nat then Some (Z.of_nat n - 48)%Z
  else if ((65 <=? n) && (n <=? 70))%nat then Some (Z.of_nat n - 55)%Z
  else if ((97 <=? n) && (n <=? 102))%nat then Some (Z.of_nat n - 87)%Z
  else None.
(** the number with these digits: parser.py:300, 327, 350 *)
Fixpoint ref_number (digit : ascii -> option Z) (base : Z) (s : string) (acc : Z) : Z :=
  match s with
  | EmptyString => acc
  | String c t => match digit c with Some d => ref_number digit base t (base * acc + d)%Z | None => acc end
  end.
(** what a reference stands for: a character, one that is not modelled, or a fault (XML does not allow
    every number).  parser.py:300, 327, 350 *)
Inductive refval := RChar (c : ascii) | RFar | RBad.
(** parser.py:300, 327, 350 *)
Definition char_number (n : Z) : refval :=
  if ((n =? 9) || (n =? 10) || (n =? 13) || (32 <=? n) && (n <? 256))%Z then RChar (ascii_of_nat (Z.to_nat n))
  else if ((256 <=? n) && (n <? 55296) || (57344 <=? n) && (n <? 65534) || (65536 <=? n) && (n <? 1114112))%Z then RFar
  else RBad.
(** the text between [&] and [;]: parser.py:300, 327, 350 *)
Definition reference (r : string) : refval :=
  match r with
  | String h t =>
      if Ascii.eqb h HASH then
        match t with
        | EmptyString => RBad
        | String x d =>
            if Ascii.eqb x "x" then match d with EmptyString => RBad | _ => char_number (ref_number hex_digit 16 d 0) end
            else char_number (ref_number dec_digit 10 t 0)
        end
      else match entity r with Some c => RChar c | None => RBad end
  | EmptyString => RBad
  end.
(** can it go on with this character?  parser.py:300, 327, 350 *)
Definition ref_next (r : string) (c : ascii) : bool :=
  match r with
  | EmptyString => name_start c || Ascii.eqb c HASH
  | String h t =>
      if Ascii.eqb h HASH then
        match t with
        | EmptyString => Ascii.eqb c "x" || (if dec_digit c then true else false)
        | String x _ => if Ascii.eqb x "x" then (if hex_digit c then true else false) else (if dec_digit c then true else false)
        end
      else name_char c
  end.
(** is this the word xml, in capital or small letters?  parser.py:300, 327, 350 *)
Definition xml_word (n : string) : bool :=
  match n with
  | String a (String b (String c EmptyString)) =>
      (Ascii.eqb a "x" || Ascii.eqb a "X") && (Ascii.eqb b "m" || Ascii.eqb b "M") && (Ascii.eqb c "l" || Ascii.eqb c "L")
  | _ => false
  end.
(** appending one character: parser.py:300, 327, 350 *)
Definition snoc (s : string) (c : ascii) : string := s ++ String c "".

(** ** the reader *)
(** where the reader stands: parser.py:300, 327, 350 *)
Inductive mode :=
| Begin                                   (* before the first character *)
| First                                   (* after a [<] that is the first character *)
| Decl | DeclQ                            (* in the declaration; after a [?] in it *)
| Text (k : nat)                          (* outside tags, after [k] characters []] *)
| Ref (r : string)                        (* in a reference in a text *)
| Lt                                      (* after [<] *)
| Name (n : string)                       (* in the name of a start tag *)
| Tag (n : string) (a : dict string) (sp : bool)   (* in a start tag; after white space? *)
| AName (n : string) (a : dict string) (k : string)
| AEq (n : string) (a : dict string) (k : string)  (* white space before [=] *)
| AOpen (n : string) (a : dict string) (k : string) (* after [=] *)
| AVal (n : string) (a : dict string) (k : string) (q : ascii) (v : string)
| ARef (n : string) (a : dict string) (k : string) (q : ascii) (v r : string)
| Slash (n : string) (a : dict string)    (* after the [/] of an empty element *)
| Close (n : string)                      (* in the name of an end tag *)
| CloseSp (n : string)                    (* white space after it *)
| Bang                                    (* after [<!] *)
| Bang1                                   (* after [<!-] *)
| Comment | Comment1 | Comment2           (* in a comment; after one [-], after two *)
| CdOpen (rest : string)                      (* in [<![CDATA[], the rest of it *)
| CData (k : nat)                         (* in a CDATA section, after [k] brackets not passed on yet, at most 2 *)
| Pi (n : string)                         (* in the name of a processing instruction *)
| PiEnd                                   (* after the [?] that follows its name *)
| PiData | PiQ.                           (* in its data; after a [?] there *)
(** [pend]: the text not passed on yet; [open]: the open elements, the innermost first; [root]: has
    the root element begun; [out]: the callbacks so far.  parser.py:300, 327, 350 *)
Record xst := mkx { x_mode : mode; x_pend : string; x_open : list string; x_root : bool; x_out : list sax }.
(** parser.py:300, 327, 350: the reader goes on, finds a fault, or meets something not modelled *)
Inductive outcome := Go (s : xst) | Bad (es : list sax) | Unmodelled.

Section Reader.
  (** the pieces in which a text is passed on, given the callbacks before it: parser.py:271-273 *)
  Variable cut : list sax -> string -> list string.
  (** passing on the pending text: parser.py:271-273 *)
  Definition flush (s : xst) : list sax := if x_pend s =? "" then x_out s else app (x_out s) (map Chars (cut (x_out s) (x_pend s))).
  (** parser.py:300, 327, 350: the same state in another mode *)
  Definition goto (s : xst) (m : mode) : outcome := Go (mkx m (x_pend s) (x_open s) (x_root s) (x_out s)).
  (** parser.py:240-251: the reader passes on a start tag *)
  Definition start_tag (s : xst) (n : string) (a : dict string) : outcome :=
    Go (mkx (Text 0) "" (n :: x_open s) true (app (flush s) [Start n a])).
  (** parser.py:240-269: an empty element *)
  Definition empty_tag (s : xst) (n : string) (a : dict string) : outcome :=
    Go (mkx (Text 0) "" (x_open s) true (app (flush s) [Start n a; End n])).
  (** parser.py:253-269: an end tag; it has to match *)
  Definition end_tag (s : xst) (n : string) : outcome :=
    match x_open s with
    | m :: t => if m =? n then Go (mkx (Text 0) "" t true (app (flush s) [End n])) else Bad (x_out s)
    | [] => Bad (x_out s)
    end.
  (** parser.py:219-273: a processing instruction is passed on to a method that does nothing *)
  Definition pi_tag (s : xst) : outcome := Go (mkx (Text 0) "" (x_open s) (x_root s) (flush s)).
  (** parser.py:300, 327, 350: a text goes on *)
  Definition add_text (s : xst) (m : mode) (t : string) : outcome := Go (mkx m (x_pend s ++ t) (x_open s) (x_root s) (x_out s)).
  (** parser.py:300, 327, 350: outside tags *)
  Definition in_text (s : xst) (k : nat) (c : ascii) : outcome :=
    if Ascii.eqb c LT then goto s Lt
    else match x_open s with
    | [] => if xspace c then goto s (Text 0) else Bad (x_out s)
    | _ =>
        if Ascii.eqb c AMP then goto s (Ref "")
        else if Ascii.eqb c GT && (2 <=? k)%nat then Bad (x_out s)
        else add_text s (Text (if Ascii.eqb c RB then S k else 0)) (String c "")
    end.
  (** parser.py:300, 327, 350: after [<] *)
  Definition in_lt (s : xst) (c : ascii) : outcome :=
    if Ascii.eqb c BANG then goto s Bang
    else if Ascii.eqb c QM then goto s (Pi "")
    else if Ascii.eqb c SLASH then match x_open s with [] => Bad (x_out s) | _ => goto s (Close "") end
    else if name_start c then
      match x_open s, x_root s with [], true => Bad (x_out s) | _, _ => goto s (Name (String c "")) end
    else Bad (x_out s).
  (** parser.py:300, 327, 350: after [<!]; a document type declaration is not modelled *)
  Definition in_bang (s : xst) (c : ascii) : outcome :=
    if Ascii.eqb c DASH then goto s Bang1
    else match x_open s with
    | [] => if Ascii.eqb c "D" && negb (x_root s) then Unmodelled else Bad (x_out s)
    | _ => if Ascii.eqb c LB then goto s (CdOpen "CDATA[") else Bad (x_out s)
    end.
  (** parser.py:300, 327, 350: in a CDATA section *)
  Definition in_cdata (s : xst) (k : nat) (c : ascii) : outcome :=
    if Ascii.eqb c RB then (if (k <? 2)%nat then goto s (CData (S k)) else add_text s (CData 2) "]")
    else if Ascii.eqb c GT && (2 <=? k)%nat then goto s (Text 0)
    else add_text s (CData 0) (match k with 0 => "" | 1 => "]" | _ => "]]" end%nat ++ String c "").
  (** parser.py:300, 327, 350: in the name of a processing instruction *)
  Definition in_pi (s : xst) (n : string) (c : ascii) : outcome :=
    if (if n =? "" then name_start c else name_char c) then goto s (Pi (snoc n c))
    else if (n =? "") || xml_word n then Bad (x_out s)
    else if xspace c then goto s PiData
    else if Ascii.eqb c QM then goto s PiEnd
    else Bad (x_out s).
  (** parser.py:300, 327, 350: one attribute; a name occurs once *)
  Definition add_attr (s : xst) (n : string) (a : dict string) (k v : string) : outcome :=
    match dget a k with Some _ => Bad (x_out s) | None => goto s (Tag n (app a [(k, v)]) false) end.
  (** parser.py:300, 327, 350: one character *)
  Definition step (s : xst) (c : ascii) : outcome :=
    if illegal c then Bad (x_out s)
    else match x_mode s with
    | Begin => if Ascii.eqb c LT then goto s First else in_text s 0 c
    | First => if Ascii.eqb c QM then goto s Decl else in_lt s c
    | Decl => goto s (if Ascii.eqb c QM then DeclQ else Decl)
    | DeclQ => goto s (if Ascii.eqb c GT then Text 0 else if Ascii.eqb c QM then DeclQ else Decl)
    | Text k => in_text s k c
    | Ref r =>
        if Ascii.eqb c SEMI then
          match reference r with RChar x => add_text s (Text 0) (String x "") | RFar => Unmodelled | RBad => Bad (x_out s) end
        else if ref_next r c then goto s (Ref (snoc r c)) else Bad (x_out s)
    | Lt => in_lt s c
    | Name n =>
        if name_char c then goto s (Name (snoc n c))
        else if xspace c then goto s (Tag n [] true)
        else if Ascii.eqb c GT then start_tag s n []
        else if Ascii.eqb c SLASH then goto s (Slash n [])
        else Bad (x_out s)
    | Tag n a sp =>
        if xspace c then goto s (Tag n a true)
        else if Ascii.eqb c GT then start_tag s n a
        else if Ascii.eqb c SLASH then goto s (Slash n a)
        else if name_start c && sp then goto s (AName n a (String c ""))
        else Bad (x_out s)
    | AName n a k =>
        if name_char c then goto s (AName n a (snoc k c))
        else if xspace c then goto s (AEq n a k)
        else if Ascii.eqb c EQ then goto s (AOpen n a k)
        else Bad (x_out s)
    | AEq n a k => if xspace c then goto s (AEq n a k) else if Ascii.eqb c EQ then goto s (AOpen n a k) else Bad (x_out s)
    | AOpen n a k =>
        if xspace c then goto s (AOpen n a k)
        else if Ascii.eqb c QUOT || Ascii.eqb c APOS then goto s (AVal n a k c "")
        else Bad (x_out s)
    | AVal n a k q v =>
        if Ascii.eqb c q then add_attr s n a k v
        else if Ascii.eqb c LT then Bad (x_out s)
        else if Ascii.eqb c AMP then goto s (ARef n a k q v "")
        else goto s (AVal n a k q (snoc v (if xspace c then " "%char else c)))
    | ARef n a k q v r =>
        if Ascii.eqb c SEMI then
          match reference r with RChar x => goto s (AVal n a k q (snoc v x)) | RFar => Unmodelled | RBad => Bad (x_out s) end
        else if ref_next r c then goto s (ARef n a k q v (snoc r c)) else Bad (x_out s)
    | Slash n a => if Ascii.eqb c GT then empty_tag s n a else Bad (x_out s)
    | Close n =>
        if (if n =? "" then name_start c else name_char c) then goto s (Close (snoc n c))
        else if n =? "" then Bad (x_out s)
        else if xspace c then goto s (CloseSp n)
        else if Ascii.eqb c GT then end_tag s n
        else Bad (x_out s)
    | CloseSp n => if xspace c then goto s (CloseSp n) else if Ascii.eqb c GT then end_tag s n else Bad (x_out s)
    | Bang => in_bang s c
    | Bang1 => if Ascii.eqb c DASH then goto s Comment else Bad (x_out s)
    | Comment => goto s (if Ascii.eqb c DASH then Comment1 else Comment)
    | Comment1 => goto s (if Ascii.eqb c DASH then Comment2 else Comment)
    | Comment2 => if Ascii.eqb c GT then goto s (Text 0) else Bad (x_out s)
    | CdOpen r =>
        match r with
        | String x r => if Ascii.eqb c x then goto s (if r =? "" then CData 0 else CdOpen r) else Bad (x_out s)
        | EmptyString => Bad (x_out s)
        end
    | CData k => in_cdata s k c
    | Pi n => in_pi s n c
    | PiEnd => if Ascii.eqb c GT then pi_tag s else Bad (x_out s)
    | PiData => goto s (if Ascii.eqb c QM then PiQ else PiData)
    | PiQ => if Ascii.eqb c GT then pi_tag s else goto s (if Ascii.eqb c QM then PiQ else PiData)
    end.
  (** parser.py:300, 327, 350: the characters of a text *)
  Fixpoint run (s : xst) (t : string) : outcome :=
    match t with
    | EmptyString => Go s
    | String c t => match step s c with Go s' => run s' t | o => o end
    end.
  (** parser.py:300, 327, 350 *)
  Definition x_init : xst := mkx Begin "" [] false [].
  (** what the reader makes of a whole text: a document; a text that ends too soon, but outside
      tags ("no element found"); or a fault (every other SAXParseException).  parser.py:300-305, 327, 350-355 *)
  Inductive reading := Whole (es : list sax) | Short (es : list sax) | Fault (es : list sax) | Unknown.
  (** parser.py:300-305, 327, 350-355: the end of the text *)
  Definition finish (o : outcome) : reading :=
    match o with
    | Unmodelled => Unknown
    | Bad es => Fault es
    | Go s =>
        match x_mode s with
        | Begin | Text _ => match x_open s, x_root s with [], true => Whole (x_out s) | _, _ => Short (flush s) end
        | _ => Fault (x_out s)
        end
    end.
  (** parser.py:300, 327, 350 *)
  Definition reading_of (t : string) : reading := finish (run x_init (norm false t)).

  (** ** the functions *)
  Variable to_float : option string -> res Q.
  Variable to_time : option string -> res Z.
  Variable set_order : list (option string) -> list (option string).
  (** parser.py:282-356: records, an exception of the handler, SAXParseException, or not modelled *)
  Inductive answer := Records (rs : list pd) | Raised (e : exn) | ParseError | Beyond.
  (** parser.py:296-306: the callbacks made before the reader stops *)
  Definition handled (ia iq : bool) (es : list sax) (k : list pd -> answer) : answer :=
    match QuakeML_model.parse_quakeml to_float to_time set_order ia iq es with Ok rs => k rs | Err e => Raised e end.
  (** parser.py:282-306 [parse_quakeml_file], 331-356 [parse_quakeml_response] *)
  Definition parse_quakeml_file (ia iq : bool) (t : string) : answer :=
    match reading_of t with
    | Whole es => handled ia iq es Records
    | Short es => handled ia iq es Records
    | Fault es => handled ia iq es (fun _ => ParseError)
    | Unknown => Beyond
    end.
  (** parser.py:308-328 [parse_quakeml] *)
  Definition parse_quakeml_string (ia iq : bool) (t : string) : answer :=
    if t =? "" then Records []
    else match reading_of t with
    | Whole es => handled ia iq es Records
    | Short es => handled ia iq es (fun _ => ParseError)
    | Fault es => handled ia iq es (fun _ => ParseError)
    | Unknown => Beyond
    end.
End Reader.
