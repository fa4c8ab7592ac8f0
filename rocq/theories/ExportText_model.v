(** * The text of an exported document: seismostats/catalogs/catalog.py:1457-1516 and the template
      catalogs/catalog_templates/quakeml.j2, rendered by utils/__init__.py:95-108

    The tree of Export_model.v with the white space of the template; [xml] (Spec_Xml.v) writes it
    without escaping anything: select_autoescape() escapes in templates named .html, .htm and .xml
    only, and this one is named quakeml.j2. *)
From Coq Require Import List Bool String Ascii ZArith.
From Verif Require Import Base Dict Utils_model Spec_QuakeML Spec_Export Spec_Xml Export_model.
Import ListNotations.
Open Scope string_scope.

(** a line break and [n] blanks: the indentation of quakeml.j2:1-82 *)
Fixpoint blanks (n : nat) : string := match n with O => "" | S n => String " " (blanks n) end.
(** a line break and [n] blanks: the indentation of quakeml.j2:1-82 *)
Definition nl (n : nat) : string := newline ++ blanks n.
(** white space between elements: quakeml.j2:1-82 *)
Definition ws (s : string) : plain := PText [s].
Section Layout.
  Variable int_text : string -> string.
  Variables agencyID author : string.
  (** quakeml.j2:6-9, 12-15, 26-29, 52-55: with indentation [k] *)
  Definition creation_lines (k : nat) : plain :=
    PElem "creationInfo" [] [ws (nl (k + 4)); leaf "agencyID" agencyID; ws (nl (k + 4)); leaf "author" author; ws (nl k)].
  (** quakeml.j2:16-19, 30-33, 43-50, 56-59: [{{ ... -}}] removes the white space behind it *)
  Definition real_lines (tag : string) (get : string -> option val) (c : string) : plain := PElem tag [] (ws (nl 20) :: real_value get c).
  (** quakeml.j2:11-22, 25-36 *)
  Definition magnitude_lines (id : option val) (get : string -> option val) (type : string) (originID : option val) : child :=
    Magnitude [("publicID", text_of id)]
      [ws (nl 16); creation_lines 16; ws (nl 16); real_lines "mag" get "magnitude"; ws (nl 16); leaf "type" type; ws (nl 16); leaf "originID" (text_of originID); ws (nl 12)].
  (** quakeml.j2:39-73 *)
  Definition origin_lines (id : option val) (get : string -> option val) : child :=
    Origin [("publicID", text_of id)]
      [ws (nl 16); PElem "time" [] [ws (nl 20); leaf "value" (text_of (get "time")); ws (nl 16)];
       ws (nl 16); real_lines "longitude" get "longitude";
       ws (nl 16); real_lines "latitude" get "latitude";
       ws (nl 16); leaf "evaluationMode" (text_of (get "evaluationmode"));
       ws (nl 16); creation_lines 16;
       ws (nl 16); real_lines "depth" get "depth";
       ws (nl 16); PElem "quality" [] (ws (nl 20) :: app (flat_map (fun tc => opt_leaf (fst tc) (int_of int_text (get (snd tc)))) int_counts)
                                                       (flat_map (fun tc => opt_leaf (fst tc) (get (snd tc))) measures));
       ws (nl 12)].
  (** quakeml.j2:23-38: the loop over the secondary magnitudes; [gap] is the white space before *)
  Fixpoint secondary_lines (gap : string) (l : list child) : list child :=
    match l with
    | [] => [Plain (ws (gap ++ newline ++ nl 12))]
    | m :: t => Plain (ws (gap ++ nl 12)) :: m :: secondary_lines (nl 12) t
    end.
  (** quakeml.j2:5-79; catalog.py:1500-1514 *)
  Definition event_lines (columns : list string) (fresh : string -> string) (row : dict val) : event :=
    let get c := if mem c (secondary_keys columns) then None else dget row c in
    let eid := id_of_row columns fresh row "eventID" in
    let oid := id_of_row columns fresh row "originID" in
    let mid := id_of_row columns fresh row "magnitudeID" in
    mkevent [("publicID", text_of eid)]
      (app [Plain (ws (nl 12)); Plain (creation_lines 12); Plain (ws (newline ++ nl 12)); magnitude_lines mid get (text_of (get "magnitude_type")) oid]
        (app (secondary_lines (newline ++ nl 12)
               (map (fun tm => magnitude_lines (dget (snd tm) "magnitude_magnitudeID") (dget (snd tm)) (fst tm) oid) (secondary_of columns row)))
          [origin_lines oid get; Plain (ws (newline ++ nl 12));
           Plain (leaf "preferredOriginID" (text_of oid)); Plain (ws (nl 12)); Plain (leaf "preferredMagnitudeID" (text_of mid)); Plain (ws (nl 12));
           Plain (leaf "type" (text_of (get "event_type"))); Plain (ws (newline ++ nl 8))])).
  (** quakeml.j2:1 *)
  Definition xml_declaration : string := "<?" ++ "xml version=" ++ String quote ("1.0" ++ String quote (" encoding=" ++ String quote ("UTF-8" ++ String quote ""))) ++ "?>" ++ newline.
  (** quakeml.j2:3-4, 79-81: a blank, a line break and the indentation, twice *)
  Definition event_gap : doc := DText [" " ++ nl 8 ++ " " ++ nl 8].
  (** quakeml.j2:2-82 *)
  Definition document_lines (events : list event) : doc :=
    DElem "q:quakeml" [("xmlns", "http://quakeml.org/xmlns/bed/1.2"); ("xmlns:q", "http://quakeml.org/xmlns/quakeml/1.2")]
      [DText [nl 4]; DElem "eventParameters" [("publicID", "smi:org.gfz-potsdam.de/geofon/EventParameters")]
         (event_gap :: flat_map (fun e => [DEvent e; event_gap]) events); DText [nl 0]].
  (** catalog.py:1457-1516: the string that [to_quakeml] returns *)
  Definition to_quakeml_text (columns : list string) (fresh : nat -> string -> string) (rows : list (dict val)) : res string :=
    if check_required_cols columns catalog_columns then
      Ok (xml_declaration ++ xml (plain_of_doc (document_lines
            (map (fun p => event_lines columns (fresh (fst p)) (snd p)) (filter (fun p => complete (snd p)) (combine (seq 0 (List.length rows)) rows))))))
    else Err AttributeError.
End Layout.
