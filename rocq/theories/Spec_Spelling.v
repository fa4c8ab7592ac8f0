(** * Spelling: the ways in which one document can be written (no reference to the reader) *)
From Coq Require Import List Bool String Ascii Arith ZArith.
From Verif Require Import Spec_QuakeML Spec_Export Spec_Xml.
Import ListNotations.
Open Scope string_scope.

(** ** References *)
Definition entities : list (ascii * string) := [("&"%char, "amp"); ("<"%char, "lt"); (">"%char, "gt"); (quote, "quot"); ("'"%char, "apos")].
Definition digits : list (ascii * Z) := [("0"%char, 0%Z); ("1"%char, 1%Z); ("2"%char, 2%Z); ("3"%char, 3%Z); ("4"%char, 4%Z); ("5"%char, 5%Z); ("6"%char, 6%Z); ("7"%char, 7%Z); ("8"%char, 8%Z); ("9"%char, 9%Z); ("a"%char, 10%Z); ("b"%char, 11%Z); ("c"%char, 12%Z); ("d"%char, 13%Z); ("e"%char, 14%Z); ("f"%char, 15%Z); ("A"%char, 10%Z); ("B"%char, 11%Z); ("C"%char, 12%Z); ("D"%char, 13%Z); ("E"%char, 14%Z); ("F"%char, 15%Z)].
(** the number written with these digits *)
Inductive denotes (base : Z) : string -> Z -> Prop :=
| denotes_one c d : In (c, d) digits -> (d < base)%Z -> denotes base (String c "") d
| denotes_more s v c d : denotes base s v -> In (c, d) digits -> (d < base)%Z -> denotes base (s ++ String c "") (base * v + d).
(** the characters a document may contain, below number 256 *)
Definition allowed (c : ascii) : Prop := code c = 9%nat \/ code c = 10%nat \/ code c = 13%nat \/ (32 <= code c)%nat.
Inductive refers : ascii -> string -> Prop :=
| refers_name c r : In (c, r) entities -> refers c ("&" ++ r ++ ";")
| refers_dec c s : allowed c -> denotes 10 s (Z.of_nat (code c)) -> refers c ("&#" ++ s ++ ";")
| refers_hex c s : allowed c -> denotes 16 s (Z.of_nat (code c)) -> refers c ("&#x" ++ s ++ ";").

(** ** Comments and processing instructions *)
Definition comment (x : string) : Prop := exists y, x = "<!--" ++ y ++ "-->" /\ all printable y = true /\ ~ occurs "--" (y ++ "-").
Definition is_xml (n : string) : Prop := In n ["xml"; "xmL"; "xMl"; "xML"; "Xml"; "XmL"; "XMl"; "XML"].
Definition instruction (x : string) : Prop := exists n y, x = "<?" ++ n ++ y ++ "?>" /\ is_name n = true /\ ~ is_xml n /\ all printable y = true /\
  ~ occurs "?>" y /\ (y = "" \/ exists c z, y = String c z /\ blank (String c "")).
(** what may stand before and after the root element *)
Inductive misc : string -> Prop :=
| misc_nil : misc ""
| misc_blank c u : blank (String c "") -> misc u -> misc (String c u)
| misc_comment x u : comment x -> misc u -> misc (x ++ u)
| misc_instruction x u : instruction x -> misc u -> misc (x ++ u).

(** ** Texts: characters, references, CDATA sections; comments in between; and, if [pi], processing
    instructions.  [k]: how many brackets have just been written ("]]>" is not allowed) *)
Inductive spelled (pi : bool) : nat -> string -> string -> Prop :=
| sp_nil k : spelled pi k "" ""
| sp_char k c s w : text_char c = true -> (c = ">"%char -> (k < 2)%nat) -> spelled pi (if Ascii.eqb c "]" then S k else 0%nat) s w -> spelled pi k (String c s) (String c w)
| sp_ref k c r s w : refers c r -> spelled pi 0 s w -> spelled pi k (String c s) (r ++ w)
| sp_comment k x s w : comment x -> spelled pi 0 s w -> spelled pi k s (x ++ w)
| sp_cdata k x s w : all printable x = true -> ~ occurs "]]>" x -> spelled pi 0 s w -> spelled pi k (x ++ s) ("<![CDATA[" ++ x ++ "]]>" ++ w)
| sp_pi k x s w : pi = true -> instruction x -> spelled pi 0 s w -> spelled pi k s (x ++ w).

(** ** Attributes, between quotes [q]; line breaks and tabulators become spaces *)
Inductive value_spelled (q : ascii) : string -> string -> Prop :=
| vs_nil : value_spelled q "" ""
| vs_char c s w : text_char c = true -> (32 <= code c)%nat -> c <> q -> value_spelled q s w -> value_spelled q (String c s) (String c w)
| vs_space c s w : (code c = 9 \/ code c = 10)%nat -> value_spelled q s w -> value_spelled q (String " " s) (String c w)
| vs_ref c r s w : refers c r -> value_spelled q s w -> value_spelled q (String c s) (r ++ w).
Definition attr_spelled (kv : string * string) (w : string) : Prop := exists b1 b2 b3 q v,
  b1 <> "" /\ blank b1 /\ blank b2 /\ blank b3 /\ (q = quote \/ q = "'"%char) /\ value_spelled q (snd kv) v /\
  w = b1 ++ fst kv ++ b2 ++ "=" ++ b3 ++ String q (v ++ String q "").
Definition names_ok (t : string) (a : attributes) : Prop := is_name t = true /\ NoDup (map fst a) /\ Forall (fun kv => is_name (fst kv) = true) a.

(** ** Trees; [solid] says which texts have no white space between visible characters: only these may
    contain processing instructions *)
Section Written.
  Variable solid : string -> Prop.
  Inductive written : plain -> string -> Prop :=
  | w_text pi ps w : spelled pi 0 (join ps) w -> (pi = true -> solid (join ps)) -> written (PText ps) w
  | w_elem t a ch aw ws b1 b2 : names_ok t a -> Forall2 attr_spelled a aw -> blank b1 -> blank b2 -> apart ch -> Forall2 written ch ws ->
      written (PElem t a ch) ("<" ++ t ++ join aw ++ b1 ++ ">" ++ join ws ++ "</" ++ t ++ b2 ++ ">")
  | w_empty t a aw b : names_ok t a -> Forall2 attr_spelled a aw -> blank b -> written (PElem t a []) ("<" ++ t ++ join aw ++ b ++ "/>").
End Written.

(** ** Line breaks: CR LF or CR instead of LF *)
Definition cr : ascii := ascii_of_nat 13.
Definition lf : ascii := ascii_of_nat 10.
Inductive other_breaks : string -> string -> Prop :=
| ob_nil : other_breaks "" ""
| ob_char c s t : c <> cr -> other_breaks s t -> other_breaks (String c s) (String c t)
| ob_crlf s t : other_breaks s t -> other_breaks (String cr (String lf s)) (String lf t)
| ob_cr s t : ~ starts (String lf "") s -> other_breaks s t -> other_breaks (String cr s) (String lf t).
