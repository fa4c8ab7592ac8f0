(** * From records to the table of a Catalog: catalogs/catalog.py:138-302, catalogs/client.py:123-145

    The columns of a Catalog with their entries.  Catalog_model.v follows the names of the columns
    through pandas' operations, Numeric_model.v and Times_model.v convert one column; here they are put
    together.  pandas makes a new Catalog in every operation, so that the conversions of [__init__]
    run again on the result.

    Not modelled: the index, times in the numeric columns and numbers in the columns time,
    magnitude_type and event_type (the parser gives texts only), duplicate column names. *)
From Coq Require Import ZArith QArith List Bool String.
From Verif Require Import Base Num Dict Utils_model QuakeML_model Xml_model Catalog_model.
From Verif Require Numeric_model Times_model.
Import ListNotations.
Open Scope string_scope.

Section Table.
  Context {T : Type} {N : Num T}.
  (** catalog.py:138-204: an entry: missing, a text, a float, an integer, a time (nanoseconds) *)
  Inductive entry := ENone | EText (s : string) | EFloat (x : T) | EInt (z : Z) | ETime (ns : Z).
  (** catalog.py:138-204: the columns in their order; all have [t_rows] entries *)
  Record table := mktable { t_rows : nat; t_cols : list (string * list entry) }.

  (** ** catalog.py:173-204: the conversions *)
  (** catalog.py:173-178 *)
  Definition numeric_cols := ["magnitude"; "latitude"; "longitude"; "depth"; "associatedphasecount"; "usedphasecount";
    "associatedstationcount"; "usedstationcount"; "standarderror"; "azimuthalgap"; "secondaryazimuthalgap"; "maximumdistance";
    "minimumdistance"; "mediandistance"].
  (** catalog.py:179 *)
  Definition string_cols := ["magnitude_type"; "event_type"].
  (** catalog.py:182-184: an entry of a numeric column (a time is not modelled) *)
  Definition num_cell (e : entry) : Numeric_model.cell T :=
    match e with
    | EText s => Numeric_model.CText s
    | EFloat x => Numeric_model.CFloat x
    | EInt z => Numeric_model.CInt z
    | _ => Numeric_model.CMissing
    end.
  (** catalog.py:184: the column that is assigned *)
  Definition of_numeric (c : Numeric_model.column T) : list entry :=
    match c with Numeric_model.Ints l => map EInt l | Numeric_model.Floats l => map EFloat l end.
  (** catalog.py:186-192: an entry of the column time (a number is not modelled) *)
  Definition time_cell (e : entry) : Times_model.cell :=
    match e with EText s => Times_model.CText s | ETime ns => Times_model.CDate ns | _ => Times_model.CMissing end.
  (** catalog.py:186-192: NaT is a missing entry *)
  Definition of_time (t : option Z) : entry := match t with Some ns => ETime ns | None => ENone end.
  (** catalog.py:194-204 *)
  Definition clean (e : entry) : entry :=
    match e with EText s => match clean_text (Some s) with Some s => EText s | None => ENone end | e => e end.
  (** catalog.py:181-204: one column *)
  Definition convert_column (name : string) (l : list entry) : res (list entry) :=
    if mem name numeric_cols then Ok (of_numeric (Numeric_model.to_numeric (map num_cell l)))
    else if name =? "time" then rmap (map of_time) (Times_model.time_column (map time_cell l))
    else if mem name string_cols then Ok (map clean l)
    else Ok l.
  (** catalog.py:181-204: all columns (only the column time can raise an exception) *)
  Fixpoint convert_columns (cs : list (string * list entry)) : res (list (string * list entry)) :=
    match cs with
    | [] => Ok []
    | (c, l) :: t => let? l' := convert_column c l in let? t' := convert_columns t in Ok ((c, l') :: t')
    end.
  (** catalog.py:138-204 [Catalog.__init__], 1582-1585: the table; without columns it gets the default ones, empty *)
  Definition init_table (t : table) : res table :=
    let t := match t_cols t with [] => mktable 0 (map (fun c => (c, [])) catalog_columns) | _ => t end in
    rmap (mktable (t_rows t)) (convert_columns (t_cols t)).

  (** ** catalog.py:255-302 [from_dict] *)
  (** catalog.py:291 (pandas: the keys in the order in which they first occur) *)
  Fixpoint add_names (seen : list string) (l : list string) : list string :=
    match l with [] => seen | n :: t => add_names (if mem n seen then seen else app seen [n]) t end.
  (** catalog.py:291 *)
  Definition names_of (rs : list pd) : list string := fold_left (fun seen r => add_names seen (map fst r)) rs [].
  (** catalog.py:291 (pandas: a key that a dictionary does not have gives NaN) *)
  Definition entry_of (r : pd) (c : string) : entry := match dget r c with Some (Some s) => EText s | _ => ENone end.
  (** catalog.py:291 [pd.DataFrame.from_dict] of a list of dictionaries *)
  Definition frame_of (rs : list pd) : table := mktable (List.length rs) (map (fun c => (c, map (fun r => entry_of r c) rs)) (names_of rs)).
  (** catalog.py:436-467: [self.drop(columns=...)], then 50-55 and 131-136: the constructor, which runs
      the conversions again if the result is a Catalog *)
  Definition drop_cols (p : string -> bool) (kt : cls * table) : res (cls * table) :=
    let t := mktable (t_rows (snd kt)) (filter (fun ce => negb (p (fst ce))) (t_cols (snd kt))) in
    match constructor_class (map fst (t_cols t)) with
    | PlainFrame => Ok (PlainFrame, t)
    | k => rmap (pair k) (init_table t)
    end.
  (** catalog.py:255-302 [from_dict]; a plain frame has no method drop_ids *)
  Definition table_from_dict (k : cls) (rs : list pd) (include_uncertainties include_ids : bool) : res (cls * table) :=
    let? t := init_table (frame_of rs) in
    let? kt := if include_uncertainties then Ok (k, t) else drop_cols (matches_end uncertainty_suffixes) (k, t) in
    if include_ids then Ok kt
    else match fst kt with PlainFrame => Err AttributeError | _ => drop_cols (matches_end id_suffixes) kt end.

  (** ** catalog.py:206-253 [from_quakeml] *)
  Variable cut : list sax -> string -> list string.
  Variable to_float : option string -> res Q.
  Variable to_time : option string -> res Z.
  Variable set_order : list (option string) -> list (option string).
  (** catalog.py:242: the files; None if there is no file of this name *)
  Variable files : string -> option string.
  (** a catalogue, an exception of the parser's handler or of from_dict, SAXParseException, or not
      modelled: catalog.py:242-253 *)
  Inductive made := Made (k : cls) (t : table) | Fails (e : exn) | NotParsed | NotModelled.
  (** catalog.py:249-253 *)
  Definition make (k : cls) (a : answer) (iu ii : bool) : made :=
    match a with
    | Records rs => match table_from_dict k rs iu ii with Ok (k', t) => Made k' t | Err e => Fails e end
    | Raised e => Fails e
    | ParseError => NotParsed
    | Beyond => NotModelled
    end.
  (** catalog.py:206-253 *)
  Definition from_quakeml (k : cls) (quakeml : string) (ia iu ii iq : bool) : made :=
    match files quakeml with
    | Some text => make k (parse_quakeml_file cut to_float to_time set_order ia iq text) iu ii
    | None => make k (parse_quakeml_string cut to_float to_time set_order ia iq quakeml) iu ii
    end.
End Table.
Arguments entry : clear implicits.
Arguments table : clear implicits.
Arguments made : clear implicits.
