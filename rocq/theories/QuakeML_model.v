(** * Model of seismostats/io/parser.py

    Strings are sequences of code points below 256.  A dictionary value is a string or None.
    Not modelled: the SAX reader itself (the input is its sequence of callbacks, with any
    chunking of the text), float() and strptime (parameters). *)
From Coq Require Import ZArith QArith List Bool String Ascii.
From Verif Require Import Base Dict.
Import ListNotations.
Open Scope string_scope.

(** ** str.strip() *)
(** parser.py:271-273: chars.strip() (Python; characters of code <= 255) *)
Definition is_space (c : ascii) : bool :=
  let n := nat_of_ascii c in
  ((9 <=? n) && (n <=? 13) || (28 <=? n) && (n <=? 32) || (n =? 133) || (n =? 160))%nat.
(** parser.py:271-273: chars.strip() (Python; characters of code <= 255) *)
Fixpoint lstrip (s : string) : string :=
  match s with EmptyString => "" | String c t => if is_space c then lstrip t else s end.
(** parser.py:271-273: chars.strip() (Python; characters of code <= 255) *)
Fixpoint rstrip (s : string) : string :=
  match s with
  | EmptyString => ""
  | String c t => match rstrip t with EmptyString => if is_space c then "" else String c "" | r => String c r end
  end.
(** parser.py:271-273: chars.strip() (Python; characters of code <= 255) *)
Definition strip (s : string) : string := rstrip (lstrip s).

(** parser.py:160-201: the dictionaries of an event; None is Python's None *)
Definition pd := dict (option string).
(** d[k]: parser.py:71, 81, 98-125, 153 *)
Definition getitem (d : pd) (k : string) : res (option string) := match dget d k with Some v => Ok v | None => Err KeyError end.
(** k in d: parser.py:116-117, 235 *)
Definition has (d : pd) (k : string) : bool := match dget d k with Some _ => true | None => false end.
Definition oeqb (a b : option string) : bool :=
  match a, b with Some x, Some y => x =? y | None, None => true | _, _ => false end.

(** ** parser.py:8-59: the tables *)
Definition real_values := [("value", ""); ("uncertainty", "_uncertainty"); ("lowerUncertainty", "_lowerUncertainty");
                           ("upperUncertainty", "_upperUncertainty"); ("confidenceLevel", "_confidenceLevel")].
(** parser.py:8-14 *)
Definition get_realvalue (key value : string) : list (string * string) := map (fun kv => (key ++ fst kv, value ++ snd kv)) real_values.
(** parser.py:17-18 *)
Definition event_mappings := [("publicID", "eventID"); ("type", "event_type")].
(** parser.py:20-27 *)
Definition origin_mappings := app (get_realvalue "origintime" "time") (app (get_realvalue "originlatitude" "latitude")
  (app (get_realvalue "originlongitude" "longitude") (app (get_realvalue "origindepth" "depth")
  [("originevaluationMode", "evaluationmode"); ("originpublicID", "originID")]))).
(** parser.py:29-41 *)
Definition quality_mappings := [
  ("originqualityassociatedPhaseCount", "associatedphasecount"); ("originqualityusedPhaseCount", "usedphasecount");
  ("originqualityassociatedStationCount", "associatedstationcount"); ("originqualityusedStationCount", "usedstationcount");
  ("originqualitydepthPhaseCount", "depthphasecount"); ("originqualitystandardError", "standarderror");
  ("originqualityazimuthalGap", "azimuthalgap"); ("originqualitysecondaryAzimuthalGap", "secondaryazimuthalgap");
  ("originqualitymaximumDistance", "maximumdistance"); ("originqualityminimumDistance", "minimumdistance");
  ("originqualitymedianDistance", "mediandistance")].
(** parser.py:43-47 *)
Definition magnitude_mappings := app (get_realvalue "magnitudemag" "magnitude") [("magnitudetype", "magnitude_type"); ("magnitudepublicID", "magnitudeID")].
(** parser.py:49-51 *)
Definition dummy_magnitude : pd := [("magnitudemagvalue", None); ("magnitudetype", None)].
Definition dummy_origin : pd := [("origintimevalue", None); ("originlatitudevalue", None); ("originlongitudevalue", None);
                                 ("origindepthvalue", None); ("originevaluationMode", None)].
(** 62-65 *)
Definition fmt (t : option string) : string := match t with Some s => s | None => "None" end.
Definition secondary_mappings (t : option string) : list (string * string) :=
  app (get_realvalue "magnitudemag" ("magnitude_" ++ fmt t)) [("magnitudepublicID", "magnitude_" ++ fmt t ++ "_magnitudeID")].

(** ** 68-83: selection by id *)
Fixpoint find_id (key : string) (l : list pd) (id : option string) : res (option pd) :=
  match l with
  | [] => Ok None
  | m :: t => let? v := getitem m key in if oeqb id v then Ok (Some m) else find_id key t id
  end.
(** helpers of the model: list comprehensions whose element function may raise (parser.py:68-127) *)
Fixpoint filter_res {A} (f : A -> res bool) (l : list A) : res (list A) :=
  match l with
  | [] => Ok []
  | x :: t => let? b := f x in let? r := filter_res f t in Ok (if b : bool then x :: r else r)
  end.
(** helpers of the model: list comprehensions whose element function may raise (parser.py:68-127) *)
Fixpoint map_res {A B} (f : A -> res B) (l : list A) : res (list B) :=
  match l with
  | [] => Ok []
  | x :: t => let? y := f x in let? r := map_res f t in Ok (y :: r)
  end.
(** parser.py:68-76 *)
Definition select_magnitude_by_id (mags : list pd) (id : option string) : res (pd * list pd) :=
  let? found := find_id "magnitudepublicID" mags id in
  let preferred := match found with Some m => m | None => dummy_magnitude end in
  let? kept := filter_res (fun m =>
      let? t := getitem m "magnitudetype" in
      let? pt := getitem preferred "magnitudetype" in
      if negb (oeqb t pt) then Ok true else let? i := getitem m "magnitudepublicID" in Ok (oeqb id i)) mags in
  Ok (preferred, kept).
(** parser.py:79-83 *)
Definition select_origin_by_id (origins : list pd) (id : option string) : res (pd * list pd) :=
  let? found := find_id "originpublicID" origins id in
  let preferred := match found with Some o => o | None => dummy_origin end in
  let? rest := filter_res (fun o => let? i := getitem o "originpublicID" in Ok (negb (oeqb id i))) origins in
  Ok (preferred, rest).

Section Parse.
  (** float(version) (finite values) and strptime(creationTime[:19]) *)
  Variable to_float : option string -> res Q.
  Variable to_time : option string -> res Z.
  (** the iteration order of a set of strings: any arrangement of the distinct elements *)
  Variable set_order : list (option string) -> list (option string).

  (** 111-120: the sort keys; a tuple (version or None, time or None) *)
  Definition vkey := "magnitudecreationInfoversion".
  (** parser.py:114-115: names of the fields *)
  Definition tkey := "magnitudecreationInfocreationTime".
  (** parser.py:116-121 *)
  Definition sort_key (k1 k2 : bool) (m : pd) : res (option Q * option Z) :=
    let? v := if k1 then let? x := getitem m vkey in let? q := to_float x in Ok (Some q) else Ok None in
    let? t := if k2 then let? x := getitem m tkey in let? z := to_time x in Ok (Some z) else Ok None in
    Ok (v, t).
  (** is [a] smaller than [b] (tuple comparison; both have the same shape) *)
  (** parser.py:118-122 (Python's sorted) *)
  Definition key_lt (a b : option Q * option Z) : bool :=
    let time_lt := match snd a, snd b with Some s, Some t => (s <? t)%Z | _, _ => false end in
    match fst a, fst b with
    | Some x, Some y => if Qeq_bool x y then time_lt else negb (Qle_bool y x)
    | _, _ => time_lt
    end.
  (** sorted(..., reverse=True) keeps the order of equal elements *)
  Definition sort_desc (l : list ((option Q * option Z) * pd)) := isort (fun a b => negb (key_lt (fst a) (fst b))) l.

  (** 86-127 [_select_secondary_magnitudes] *)
  Fixpoint distinct (l : list (option string)) : list (option string) :=
    match l with [] => [] | x :: t => if existsb (oeqb x) t then distinct t else x :: distinct t end.
  (** parser.py:107-125: the magnitude chosen for one type *)
  Definition pick_one (mags : list pd) (mt : option string) : res pd :=
    let? of_type := filter_res (fun m => let? t := getitem m "magnitudetype" in Ok (oeqb t mt)) mags in
    match of_type with
    | [m] => Ok m
    | _ =>
        let k1 := forallb (fun m => has m vkey) of_type in
        let k2 := forallb (fun m => has m tkey) of_type in
        let? keyed := map_res (fun m => let? k := sort_key k1 k2 m in Ok (k, m)) of_type in
        match sort_desc keyed with [] => Err IndexError | (_, m) :: _ => Ok m end
    end.
  Definition select_secondary_magnitudes (mags : list pd) : res (list pd) :=
    let? types := map_res (fun m => getitem m "magnitudetype") mags in
    let types := distinct types in
    if (List.length types =? List.length mags)%nat then Ok mags
    else map_res (pick_one mags) (set_order types).

  (** 130-157: extraction *)
  Definition extract_into (out : pd) (mappings : list (string * string)) (d : pd) : pd :=
    fold_left (fun out kv => match dget d (fst kv) with Some v => dset out (snd kv) v | None => out end) mappings out.
  (** parser.py:130-139 *)
  Definition extract_origin (o : pd) (include_quality : bool) : pd :=
    let d := extract_into [] origin_mappings o in
    if include_quality then extract_into d quality_mappings o else d.
  (** parser.py:142-147 *)
  Definition extract_magnitude (m : pd) : pd := extract_into [] magnitude_mappings m.
  Fixpoint extract_secondary (out : pd) (mags : list pd) : res pd :=
    match mags with
    | [] => Ok out
    | m :: t => let? ty := getitem m "magnitudetype" in extract_secondary (extract_into out (secondary_mappings ty) m) t
    end.
  (** 160-201 [_parse_to_dict] *)
  Definition get_default (d : pd) (k : string) : option string := match dget d k with Some v => v | None => None end.
  Definition parse_to_dict (include_all include_quality : bool) (event : pd) (origins mags : list pd) : res pd :=
    let? (preferred_origin, _) := select_origin_by_id origins (get_default event "preferredOriginID") in
    let? (preferred_mag, mags) := select_magnitude_by_id mags (get_default event "preferredMagnitudeID") in
    let? mags := match mags with [] => Ok [] | _ => if include_all then select_secondary_magnitudes mags else Ok [] end in
    let params : pd := map (fun kv => (snd kv, get_default event (fst kv))) event_mappings in
    let? secondary := extract_secondary [] mags in
    Ok (dupdate (dupdate (dupdate params (extract_origin preferred_origin include_quality)) (extract_magnitude preferred_mag)) secondary).

  (** ** 204-279: the SAX handler *)
  Inductive sax := Start (tag : string) (attrs : dict string) | End (tag : string) | Chars (s : string).
  (** parser.py:219-232: the state of the handler *)
  Record hst := mkh { h_cat : list pd; h_event : list pd; h_origin : list pd; h_mag : list pd; h_parent : string; h_loc : string }.
  (** parser.py:219-232 *)
  Definition h_init (cat : list pd) : hst := mkh cat [] [] [] "" "".
  (** parser.py:219-238: self.event, self.origin, self.magnitude *)
  Definition get_list (s : hst) (key : string) : list pd := if key =? "event" then h_event s else if key =? "origin" then h_origin s else h_mag s.
  Definition put_list (s : hst) (key : string) (l : list pd) : hst :=
    if key =? "event" then mkh (h_cat s) l (h_origin s) (h_mag s) (h_parent s) (h_loc s)
    else if key =? "origin" then mkh (h_cat s) (h_event s) l (h_mag s) (h_parent s) (h_loc s)
    else mkh (h_cat s) (h_event s) (h_origin s) l (h_parent s) (h_loc s).
  (** 234-238 [setter]; it works on the last dictionary of the list *)
  Definition add_value (d : pd) (loc add value : string) : res pd :=
    if has d loc then
      match dget d (loc ++ add) with
      | Some (Some old) => Ok (dset d (loc ++ add) (Some (old ++ value)))
      | Some None => Err TypeError
      | None => Err KeyError
      end
    else Ok (dset d (loc ++ add) (Some value)).
  (** parser.py:234-238 *)
  Definition setter (s : hst) (key value add : string) : res hst :=
    match rev (get_list s key) with
    | [] => Err IndexError
    | d :: before => let? d' := add_value d (h_loc s) add value in Ok (put_list s key (app (rev before) [d']))
    end.
  (** parser.py:240-269: the tags with a list of their own *)
  Definition special (tag : string) : bool := (tag =? "event") || (tag =? "origin") || (tag =? "magnitude").
  (** parser.py:240-269: assignment to self.parent and self.location *)
  Definition set_pl (s : hst) (parent loc : string) : hst := mkh (h_cat s) (h_event s) (h_origin s) (h_mag s) parent loc.
  Definition handle (include_all include_quality : bool) (s : hst) (e : sax) : res hst :=
    match e with
    | Start tag attrs =>
        (* 240-251 *)
        if special tag then
          let s := set_pl s tag (if tag =? "event" then "" else tag) in
          let s := put_list s tag (app (get_list s tag) [[]]) in
          match dget attrs "publicID" with Some v => setter s tag v "publicID" | None => Ok s end
        else if negb (h_parent s =? "") then Ok (set_pl s (h_parent s) (h_loc s ++ tag)) else Ok s
    | End tag =>
        (* 253-269 *)
        if tag =? "event" then
          match rev (h_event s) with
          | [] => Err IndexError
          | ev :: _ => let? d := parse_to_dict include_all include_quality ev (h_origin s) (h_mag s) in Ok (h_init (app (h_cat s) [d]))
          end
        else
          let s := if (tag =? "origin") || (tag =? "magnitude") then set_pl s "event" (h_loc s) else s in
          if negb (h_parent s =? "") then Ok (set_pl s (h_parent s) (substring 0 (String.length (h_loc s) - String.length tag) (h_loc s))) else Ok s
    | Chars c =>
        (* 271-273 *)
        if negb (strip c =? "") && negb (h_parent s =? "") then setter s (h_parent s) (strip c) "" else Ok s
    end.
  Fixpoint handle_all (include_all include_quality : bool) (s : hst) (es : list sax) : res hst :=
    match es with
    | [] => Ok s
    | e :: t => let? s' := handle include_all include_quality s e in handle_all include_all include_quality s' t
    end.
  (** 308-328 [parse_quakeml] of the callbacks of a document *)
  Definition parse_quakeml (include_all include_quality : bool) (es : list sax) : res (list pd) :=
    rmap h_cat (handle_all include_all include_quality (h_init []) es).
End Parse.
