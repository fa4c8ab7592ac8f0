(** * Model of Catalog.to_quakeml (seismostats/catalogs/catalog.py:1411-1516, 1588-1602) and of the
      template catalogs/catalog_templates/quakeml.j2

    A row of the catalogue maps column names to values; a value is a missing number (NaN), None, or
    something else, given by the text str.format makes of it (for the column time: the text made by
    strftime).  The exported document is the tree of its elements: white space between elements is
    left out, and texts are taken to need no XML escaping (the template escapes nothing).
    [fresh] gives the new ids of a row, [int_text] the text of a value after the filter int. *)
From Coq Require Import List Bool String Ascii ZArith.
From Verif Require Import Base Dict Utils_model Spec_QuakeML Spec_Export.
Import ListNotations.
Open Scope string_scope.

(** pd.notna, dropna: catalog.py:1493, 1506 *)
Definition notna (v : option val) : bool := match v with Some (Val _) => true | _ => false end.

(** ** str: in, split, replace *)
(** the operator [in] on strings: catalog.py:1427-1429, 1507 *)
Fixpoint contains (sub s : string) : bool :=
  prefix sub s || match s with String _ t => contains sub t | EmptyString => false end.
(** str.split: catalog.py:1444, 1509 *)
Fixpoint split_from (c : ascii) (acc : string) (s : string) : list string :=
  match s with
  | EmptyString => [acc]
  | String x t => if Ascii.eqb x c then acc :: split_from c "" t else split_from c (acc ++ String x "") t
  end.
(** str.split: catalog.py:1444, 1509 *)
Definition split (c : ascii) (s : string) : list string := split_from c "" s.
(** s.replace(old, '') for a non-empty [old]; [skip] characters still belong to the last match *)
(** catalog.py:1510 *)
Fixpoint remove_from (old : string) (skip : nat) (s : string) : string :=
  match s with
  | EmptyString => ""
  | String c t =>
      match skip with
      | S k => remove_from old k t
      | O => if prefix old s then remove_from old (String.length old - 1) t else String c (remove_from old 0 t)
      end
  end.
Definition remove (old s : string) : string := remove_from old 0 s.

(** 1411-1429 [_secondary_magnitudekeys] *)
Definition detail_columns := ["magnitude_uncertainty"; "magnitude_lowerUncertainty"; "magnitude_upperUncertainty"; "magnitude_confidenceLevel"; "magnitude_type"].
(** catalog.py:1410-1430 *)
Definition secondary_keys (columns : list string) : list string :=
  filter (fun c => contains "magnitude_" c && negb (existsb (fun v => contains v c) detail_columns)) columns.
(** catalog.py:1444, 1509 *)
Definition second_part (c : string) : string := nth 1 (split "_"%char c) "".

(** 1431-1453 [_create_ids]: columns that are missing get new ids.  The columns made for secondary
    magnitudes are never used: the export works with the secondary columns of the original. *)
Definition id_of_row (columns : list string) (fresh : string -> string) (row : dict val) (c : string) : option val :=
  if mem c columns then dget row c else Some (Val (fresh c)).

(** 1500-1514: the secondary magnitudes of an event, by type *)
Definition sec_mags := dict (dict val).
(** catalog.py:1506-1513: one secondary column of a row *)
Definition add_sec (mt : option val) (row : dict val) (acc : sec_mags) (c : string) : sec_mags :=
  match dget row c, mt with
  | Some (Val s), Some (Val t) =>
      if contains t c then acc
      else let ty := second_part c in
           let key := remove ("_" ++ ty) c in
           dset acc ty (dset (match dget acc ty with Some d => d | None => [] end) key (Val s))
  | _, _ => acc
  end.
(** catalog.py:1504-1514 *)
Definition secondary_of (columns : list string) (row : dict val) : sec_mags :=
  fold_left (add_sec (dget row "magnitude_type") row) (secondary_keys columns) [].

(** ** the template *)
(** {{ x }} *)
(** quakeml.j2:5, 11, 20, 21, 25, 34, 35, 39, 51, 75-77 *)
Definition text_of (v : option val) : string :=
  match v with None => "" | Some VNan => "nan" | Some VNone => "None" | Some (Val s) => s end.
(** quakeml.j2: an element with a text *)
Definition leaf (tag text : string) : plain := PElem tag [] [PText [text]].
(** {{ '<tag>{}</tag>'.format(x) if not x is nan and x is defined else '' }} *)
(** quakeml.j2:17-18, 31-32, 44-49, 57-58 *)
Definition opt_leaf (tag : string) (v : option val) : list plain :=
  match v with None | Some VNan => [] | Some VNone => [leaf tag "None"] | Some (Val s) => [leaf tag s] end.
(** quakeml.j2:17-18, 31-32, 44-45, 48-49, 57-58 *)
Definition real_value (get : string -> option val) (c : string) : list plain :=
  app (opt_leaf "value" (get c)) (opt_leaf "uncertainty" (get (c ++ "_uncertainty"))).
Section Export.
  Variable int_text : string -> string.
  Variables agencyID author : string.
  (** x|int: 0 if int(x) fails *)
  Definition int_of (v : option val) : option val :=
    match v with Some (Val s) => Some (Val (int_text s)) | Some VNone => Some (Val "0") | _ => v end.
  Definition creation_info : plain := PElem "creationInfo" [] [leaf "agencyID" agencyID; leaf "author" author].
  (** quakeml.j2:11-22, 25-36 *)
  Definition magnitude_node (id : option val) (get : string -> option val) (type : string) (originID : option val) : child :=
    Magnitude [("publicID", text_of id)]
      [creation_info; PElem "mag" [] (real_value get "magnitude"); leaf "type" type; leaf "originID" (text_of originID)].
  (** quakeml.j2:61-65 *)
  Definition int_counts := [("associatedPhaseCount", "associatedphasecount"); ("usedPhaseCount", "usedphasecount"); ("associatedStationCount", "associatedstationcount");
                            ("usedStationCount", "usedstationcount"); ("depthPhaseCount", "depthphasecount")].
  Definition measures := [("standardError", "standarderror"); ("azimuthalGap", "azimuthalgap"); ("secondaryAzimuthalGap", "secondaryazimuthalgap");
                          ("maximumDistance", "maximumdistance"); ("minimumDistance", "minimumdistance"); ("medianDistance", "mediandistance")].
  (** quakeml.j2:39-73 *)
  Definition origin_node (id : option val) (get : string -> option val) : child :=
    Origin [("publicID", text_of id)]
      [PElem "time" [] [leaf "value" (text_of (get "time"))];
       PElem "longitude" [] (real_value get "longitude");
       PElem "latitude" [] (real_value get "latitude");
       leaf "evaluationMode" (text_of (get "evaluationmode"));
       creation_info;
       PElem "depth" [] (real_value get "depth");
       PElem "quality" [] (app (flat_map (fun tc => opt_leaf (fst tc) (int_of (get (snd tc)))) int_counts)
                               (flat_map (fun tc => opt_leaf (fst tc) (get (snd tc))) measures))].
  (** quakeml.j2:4-79, 1500-1514 (the secondary columns are removed from the event) *)
  Definition export_event (columns : list string) (fresh : string -> string) (row : dict val) : event :=
    let get c := if mem c (secondary_keys columns) then None else dget row c in
    let eid := id_of_row columns fresh row "eventID" in
    let oid := id_of_row columns fresh row "originID" in
    let mid := id_of_row columns fresh row "magnitudeID" in
    mkevent [("publicID", text_of eid)]
      (app [Plain creation_info; magnitude_node mid get (text_of (get "magnitude_type")) oid]
        (app (map (fun tm => magnitude_node (dget (snd tm) "magnitude_magnitudeID") (dget (snd tm)) (fst tm) oid) (secondary_of columns row))
          [origin_node oid get; Plain (leaf "preferredOriginID" (text_of oid)); Plain (leaf "preferredMagnitudeID" (text_of mid));
           Plain (leaf "type" (text_of (get "event_type")))])).
  (** 1455-1516 [to_quakeml]; AttributeError from require_cols *)
  Definition catalog_columns := ["longitude"; "latitude"; "depth"; "time"; "magnitude"; "magnitude_type"].
  (** catalog.py:1493: rows without place or time are dropped *)
  Definition complete (row : dict val) : bool := notna (dget row "latitude") && notna (dget row "longitude") && notna (dget row "time").
  (** catalog.py:1457-1516 *)
  Definition to_quakeml (columns : list string) (fresh : nat -> string -> string) (rows : list (dict val)) : res (list doc) :=
    if check_required_cols columns catalog_columns then
      Ok [DElem "q:quakeml" [] [DElem "eventParameters" [("publicID", "smi:org.gfz-potsdam.de/geofon/EventParameters")]
            (map (fun p => DEvent (export_event columns (fresh (fst p)) (snd p))) (filter (fun p => complete (snd p)) (combine (seq 0 (List.length rows)) rows)))]]
    else Err AttributeError.
End Export.

(** catalog.py:1587-1602 [ForecastCatalog.to_quakeml]: one document per group of rows with the same
    catalog_id, in increasing order of the id; rows without an id are in no group.  The id of a row
    is an integer or missing.  Simplification: Catalog(group) converts columns that have been
    converted before, and each group draws its own new ids ([fresh] by id, then row). *)
Section Forecast.
  Variable int_text : string -> string.
  Variables agencyID author : string.
  (** catalog.py:1599-1602: groupby('catalog_id') and the list comprehension *)
  Definition group_keys (ids : list (option Z)) : list Z := isort Z.leb (nodup Z.eq_dec (flat_map (fun o => match o with Some i => [i] | None => [] end) ids)).
  (** catalog.py:1599-1602: groupby('catalog_id') and the list comprehension *)
  Definition group (ids : list (option Z)) (rows : list (dict val)) (i : Z) : list (dict val) :=
    map snd (filter (fun p => match fst p with Some j => (i =? j)%Z | None => false end) (combine ids rows)).
  (** catalog.py:1599-1602: groupby('catalog_id') and the list comprehension *)
  Fixpoint each {A B} (f : A -> res B) (l : list A) : res (list B) :=
    match l with [] => Ok [] | x :: t => let? y := f x in let? r := each f t in Ok (y :: r) end.
  (** catalog.py:1587-1602 *)
  Definition forecast_to_quakeml (columns : list string) (fresh : Z -> nat -> string -> string) (ids : list (option Z)) (rows : list (dict val)) : res (list (list doc)) :=
    if check_required_cols columns (app catalog_columns ["catalog_id"]) then each (fun i => to_quakeml int_text agencyID author columns (fresh i) (group ids rows i)) (group_keys ids)
    else Err AttributeError.
End Forecast.
