(** * Documents as text (no reference to the reader) *)
From Coq Require Import List Bool String Ascii Arith.
From Verif Require Import Spec_QuakeML Spec_Export.
Import ListNotations.
Open Scope string_scope.

Definition code (c : ascii) : nat := nat_of_ascii c.
Fixpoint all (f : ascii -> bool) (s : string) : bool := match s with "" => true | String c t => f c && all f t end.
Definition quote : ascii := ascii_of_nat 34.
Definition newline : string := String (ascii_of_nat 10) "".
(** characters that stand for themselves in a text: no [<], no [&], no control characters *)
Definition text_char (c : ascii) : bool :=
  negb (Ascii.eqb c "<") && negb (Ascii.eqb c "&") && ((32 <=? code c) || (code c =? 9) || (code c =? 10))%nat.
(** ... and in an attribute value: no quote, no line break either *)
Definition id_char (c : ascii) : bool := text_char c && negb (Ascii.eqb c quote) && (32 <=? code c)%nat.
Definition safe_text (s : string) : Prop := all text_char s = true /\ ~ occurs "]]>" s.
Definition safe_id (s : string) : Prop := all id_char s = true.
(** names of elements and attributes: letters are those of ASCII and of Latin-1 (192 to 255
    without the signs for times, 215, and divided by, 247), and the underscore *)
Definition letter (c : ascii) : bool :=
  ((65 <=? code c) && (code c <=? 90) || (97 <=? code c) && (code c <=? 122) || (192 <=? code c) && negb (code c =? 215) && negb (code c =? 247))%nat || Ascii.eqb c "_".
Definition name_letter (c : ascii) : bool := letter c || ((48 <=? code c) && (code c <=? 57) || (code c =? 183))%nat || Ascii.eqb c ":" || Ascii.eqb c "-" || Ascii.eqb c ".".
Definition is_name (s : string) : bool := match s with "" => false | String c t => letter c && all name_letter t end.

(** ** The text of a tree: nothing is escaped *)
Definition xml_attr (kv : string * string) : string := " " ++ fst kv ++ "=" ++ String quote (snd kv ++ String quote "").
Definition xml_attrs (a : attributes) : string := join (map xml_attr a).
Fixpoint xml (p : plain) : string :=
  match p with
  | PText ps => join ps
  | PElem t a ch => "<" ++ t ++ xml_attrs a ++ ">" ++ join (map xml ch) ++ "</" ++ t ++ ">"
  end.
(** no text beside a text *)
Definition is_text (p : plain) : bool := match p with PText _ => true | _ => false end.
Fixpoint apart (l : list plain) : Prop :=
  match l with
  | [] => True
  | p :: t => (is_text p = true -> match t with q :: _ => is_text q = false | [] => True end) /\ apart t
  end.
(** a tree whose text can be read: names, distinct attributes, nothing that would need escaping *)
Definition safe_attrs (a : attributes) : Prop := NoDup (map fst a) /\ Forall (fun kv => is_name (fst kv) = true /\ safe_id (snd kv)) a.
Fixpoint safe (p : plain) : Prop :=
  match p with
  | PText ps => safe_text (join ps)
  | PElem t a ch => is_name t = true /\ safe_attrs a /\ apart ch /\ fold_right (fun c r => safe c /\ r) True ch
  end.

(** ** The same tree, its texts in other pieces: a text may be cut if it has no white space between
    visible characters; [solid] says which texts have none *)
Section Recut.
  Variable solid : string -> Prop.
  Inductive recut : plain -> plain -> Prop :=
  | recut_text ps ps' : join ps' = join ps -> (solid (join ps) \/ ps' = [join ps]) -> recut (PText ps) (PText ps')
  | recut_elem t a ch ch' : Forall2 recut ch ch' -> recut (PElem t a ch) (PElem t a ch').
End Recut.

(** documents, events and their children as plain trees *)
Definition plain_of_child (c : child) : plain :=
  match c with Plain p => p | Origin a ch => PElem "origin" a ch | Magnitude a ch => PElem "magnitude" a ch end.
Fixpoint plain_of_doc (d : doc) : plain :=
  match d with
  | DText ps => PText ps
  | DElem t a ch => PElem t a (map plain_of_doc ch)
  | DEvent e => PElem "event" (ev_attrs e) (map plain_of_child (ev_children e))
  end.

(** ** Whole documents: a declaration or none, the root element, white space *)
Definition blank (s : string) : Prop := all (fun c => (code c =? 32) || (code c =? 9) || (code c =? 10))%nat s = true.
(** the same with carriage returns *)
Definition white_space (s : string) : Prop := all (fun c => (code c =? 32) || (code c =? 9) || (code c =? 10) || (code c =? 13))%nat s = true.
Definition heading (h : string) : Prop :=
  h = "" \/ exists d b, all (fun c => negb (Ascii.eqb c "?") && (32 <=? code c)%nat) d = true /\ blank b /\ h = "<?" ++ d ++ "?>" ++ b.
(** how texts are cut: nothing is lost, and a text with white space between visible characters is
    passed on in one piece *)
Definition fair_cut {O} (solid : string -> Prop) (cut : O -> string -> list string) : Prop :=
  (forall o s, join (cut o s) = s) /\ (forall o s, solid s \/ cut o s = [s]).

(** ** The beginning of a document: start tags, each followed by a text *)
Definition opening : Type := list (string * attributes * string).
Definition opening_text (l : opening) : string := join (map (fun x => "<" ++ fst (fst x) ++ xml_attrs (snd (fst x)) ++ ">" ++ snd x) l).
Definition opening_ok (l : opening) : Prop :=
  l <> [] /\ Forall (fun x => is_name (fst (fst x)) = true /\ reserved (fst (fst x)) = false /\ safe_attrs (snd (fst x)) /\ safe_text (snd x)) l.

(** texts that can be written anywhere *)
Definition writable (s : string) : Prop := safe_id s /\ ~ occurs "]]>" s.

(** an id that breaks the document: a [<], or an [&] that does not begin a reference *)
Definition breaks (s : string) : Prop := exists u v, s = u ++ v /\ safe_id u /\
  (starts "<" v \/ exists n x w, v = "&" ++ n ++ String x w /\ (n = "" \/ is_name n = true) /\
     name_letter x = false /\ x <> ";"%char /\ x <> "#"%char /\ (32 <= code x < 127)%nat).

(** ** The text of a tree, escaped: every character with a meaning of its own is written as a reference *)
Definition printable (c : ascii) : bool := ((32 <=? code c) || (code c =? 9) || (code c =? 10))%nat.
Definition esc_char (attribute : bool) (c : ascii) : string :=
  if Ascii.eqb c "&" then "&amp;" else if Ascii.eqb c "<" then "&lt;" else if Ascii.eqb c ">" then "&gt;"
  else if attribute && Ascii.eqb c quote then "&quot;" else String c "".
Fixpoint esc (attribute : bool) (s : string) : string := match s with "" => "" | String c t => esc_char attribute c ++ esc attribute t end.
Definition xml_esc_attr (kv : string * string) : string := " " ++ fst kv ++ "=" ++ String quote (esc true (snd kv) ++ String quote "").
Definition xml_esc_attrs (a : attributes) : string := join (map xml_esc_attr a).
Fixpoint xml_esc (p : plain) : string :=
  match p with
  | PText ps => esc false (join ps)
  | PElem t a ch => "<" ++ t ++ xml_esc_attrs a ++ ">" ++ join (map xml_esc ch) ++ "</" ++ t ++ ">"
  end.
(** names, distinct attributes, no control characters (nor line breaks in attributes) *)
Definition plain_attrs (a : attributes) : Prop := NoDup (map fst a) /\ Forall (fun kv => is_name (fst kv) = true /\ all (fun c => 32 <=? code c)%nat (snd kv) = true) a.
Fixpoint writable_tree (p : plain) : Prop :=
  match p with
  | PText ps => all printable (join ps) = true
  | PElem t a ch => is_name t = true /\ plain_attrs a /\ apart ch /\ fold_right (fun c r => writable_tree c /\ r) True ch
  end.
