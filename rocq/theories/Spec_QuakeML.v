(** * QuakeML documents as trees (no reference to the handler) *)
From Coq Require Import List Bool String Ascii.
Import ListNotations.
Open Scope string_scope.

(** an attribute list *)
Definition attributes := list (string * string).
(** Content below events, origins and magnitudes.  The text of a [PText] is the concatenation
    of the pieces the XML reader delivers one by one. *)
Inductive plain :=
| PText (pieces : list string)
| PElem (tag : string) (attrs : attributes) (children : list plain).
(** the children of an event *)
Inductive child :=
| Plain (p : plain)
| Origin (attrs : attributes) (children : list plain)
| Magnitude (attrs : attributes) (children : list plain).
Record event := mkevent { ev_attrs : attributes; ev_children : list child }.
(** everything outside events *)
Inductive doc :=
| DText (pieces : list string)
| DElem (tag : string) (attrs : attributes) (children : list doc)
| DEvent (e : event).

(** the events of a document, in document order *)
Fixpoint events_of (d : doc) : list event :=
  match d with
  | DText _ => []
  | DElem _ _ ch => flat_map events_of ch
  | DEvent e => [e]
  end.
Definition docs_events (ds : list doc) : list event := flat_map events_of ds.

(** the tags event, origin and magnitude are not used for anything else *)
Definition reserved (tag : string) : bool := (tag =? "event") || (tag =? "origin") || (tag =? "magnitude").
Fixpoint plain_ok (p : plain) : Prop :=
  match p with
  | PText _ => True
  | PElem t _ ch => reserved t = false /\ fold_right (fun c r => plain_ok c /\ r) True ch
  end.
Definition child_ok (c : child) : Prop :=
  match c with Plain p => plain_ok p | Origin _ ch | Magnitude _ ch => Forall plain_ok ch end.
Fixpoint doc_ok (d : doc) : Prop :=
  match d with
  | DText _ => True
  | DElem t _ ch => reserved t = false /\ fold_right (fun c r => doc_ok c /\ r) True ch
  | DEvent e => Forall child_ok (ev_children e)
  end.

(** the pieces of text in a node with their paths: the tags from the enclosing event, origin or
    magnitude down, joined; blank pieces do not count; [trim] removes surrounding white space *)
Section Fields.
  Variable trim : string -> string.
  Definition visible (path : string) (pieces : list string) : list (string * string) :=
    flat_map (fun s => if trim s =? "" then [] else [(path, trim s)]) pieces.
  Fixpoint texts (path : string) (p : plain) : list (string * string) :=
    match p with
    | PText pieces => visible path pieces
    | PElem t _ ch => flat_map (texts (path ++ t)) ch
    end.
  (** the value of the field [k]: all pieces with this path, joined; none: no field *)
  Definition values (l : list (string * string)) (k : string) : list string :=
    flat_map (fun kv => if fst kv =? k then [snd kv] else []) l.
  Definition join (l : list string) : string := fold_right append "" l.
  Definition field (l : list (string * string)) (k : string) : option string :=
    match values l k with [] => None | vs => Some (join vs) end.
  Fixpoint attr (a : attributes) (k : string) : option string :=
    match a with [] => None | (k', v) :: t => if k =? k' then Some v else attr t k end.
  (** the fields of a node with own tag [name]: the attribute publicID and the texts below *)
  Definition public (name : string) (a : attributes) : list (string * string) :=
    match attr a "publicID" with Some v => [(name ++ "publicID", v)] | None => [] end.
  Definition node_fields (name : string) (a : attributes) (ch : list plain) : list (string * string) :=
    public name a ++ flat_map (texts name) ch.
  Definition event_fields (e : event) : list (string * string) :=
    public "" (ev_attrs e) ++ flat_map (fun c => match c with Plain p => texts "" p | _ => [] end) (ev_children e).
  Definition origin_fields (e : event) : list (list (string * string)) :=
    flat_map (fun c => match c with Origin a ch => [node_fields "origin" a ch] | _ => [] end) (ev_children e).
  Definition magnitude_fields (e : event) : list (list (string * string)) :=
    flat_map (fun c => match c with Magnitude a ch => [node_fields "magnitude" a ch] | _ => [] end) (ev_children e).
End Fields.

(** the same document delivered with every text in one piece *)
Definition whole (pieces : list string) : list string := [join pieces].
Fixpoint merge_plain (p : plain) : plain :=
  match p with PText ps => PText (whole ps) | PElem t a ch => PElem t a (map merge_plain ch) end.
Definition merge_child (c : child) : child :=
  match c with
  | Plain p => Plain (merge_plain p)
  | Origin a ch => Origin a (map merge_plain ch)
  | Magnitude a ch => Magnitude a (map merge_plain ch)
  end.
Fixpoint merge_doc (d : doc) : doc :=
  match d with
  | DText ps => DText (whole ps)
  | DElem t a ch => DElem t a (map merge_doc ch)
  | DEvent e => DEvent (mkevent (ev_attrs e) (map merge_child (ev_children e)))
  end.
