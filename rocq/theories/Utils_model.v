(** * Model of seismostats/utils: options, required columns, dates, coordinates, polygon filter

    Not modelled: jinja2 ([_render_template]), pyproj and shapely themselves.  A projection is
    a function between points, a polygon is its list of rings. *)
From Coq Require Import ZArith List Bool String Ascii Lia.
From Verif Require Import Base Num Dict StateM.
Import ListNotations.
Open Scope string_scope.

(** ** utils/_config.py:3-5, the module variable [__options] *)
Section Options.
  Context {V : Type}.
  Definition default_options (yes : V) : dict V := [("warnings", yes)].
  (** _config.py:8-38 *)
  Definition set_option (key : string) (value : V) : SM (dict V) unit := fun opts =>
    match dget opts key with
    | Some _ => (dset opts key value, Ok tt)
    | None => (opts, Err KeyError)
    end.
  (** _config.py:41-63 *)
  Definition get_option (key : string) : SM (dict V) V := fun opts =>
    match dget opts key with Some v => (opts, Ok v) | None => (opts, Err KeyError) end.
End Options.

(** ** utils/__init__.py:20-35, [_check_required_cols]: set inclusion *)
Definition mem (c : string) (l : list string) : bool := existsb (String.eqb c) l.
(** utils/__init__.py:20-35 *)
Definition check_required_cols (columns required : list string) : bool := forallb (fun c => mem c columns) required.
(** utils/__init__.py:38-75: a decorated method.  The decorator's variable [require] is shared
    by all calls (nonlocal); the state of a call is that variable together with the object.
    [cols s] are the columns of the object in state [s]; the method itself is [func]. *)
Section Require.
  Context {S A B : Type} (cols : S -> list string).
  (** utils/__init__.py:53-64 *)
  Definition wrapper_require (exclude : option (list string)) (func : A -> SM S B) (a : A) : SM (list string * S) B :=
    fun st => let (require, s) := st in
      let require' := match exclude with
                      | Some ((_ :: _) as ex) => filter (fun c => negb (mem c ex)) require
                      | _ => require
                      end in
      if check_required_cols (cols s) require'
      then let (s', r) := func a s in ((require', s'), r)
      else ((require', s), Err AttributeError).
End Require.

(** ** utils/__init__.py:111-151: dates
    A Python datetime without time zone.  Strings are sequences of code points below 256;
    Python's [\d] also accepts the decimal digits of other scripts, which are all above. *)
Record datetime := mkdt { dt_year : Z; dt_month : Z; dt_day : Z; dt_hour : Z; dt_minute : Z; dt_second : Z; dt_micro : Z }.

(** helper of the model: equality of characters *)
Definition ceqb := Ascii.eqb.
(** [s.split(c)] for a one-character separator *)
(** utils/__init__.py:114-115, 146-147 (Python) *)
Fixpoint split (c : ascii) (s : string) : list string :=
  match s with
  | EmptyString => [""]
  | String x t => if ceqb x c then "" :: split c t
                  else match split c t with h :: r => String x h :: r | [] => [String x ""] end
  end.
(** ['-'.join(parts)] *)
(** utils/__init__.py:118 (Python) *)
Fixpoint join (sep : string) (l : list string) : string :=
  match l with [] => "" | [x] => x | x :: r => x ++ sep ++ join sep r end.
(** the operator [in]: utils/__init__.py:113 *)
Fixpoint has_char (c : ascii) (s : string) : bool :=
  match s with EmptyString => false | String x t => ceqb x c || has_char c t end.
Fixpoint zeros (n : nat) : string := match n with O => "" | S n => String "0" (zeros n) end.
(** [s.zfill(4)]: zeros on the left, after a sign *)
Definition zfill4 (s : string) : string :=
  let k := (4 - String.length s)%nat in
  match s with
  | String x t => if ceqb x "+" || ceqb x "-" then String x (zeros k ++ t) else zeros k ++ s
  | EmptyString => zeros k
  end.
(** 111-120 *)
Definition pad_year (val : string) : res string :=
  if has_char "T" val then
    match split "T" val with
    | [date_part; time_part] =>
        match split "-" date_part with
        | p0 :: rest =>
            let p0 := if (String.length p0 <? 4)%nat then zfill4 p0 else p0 in
            Ok (join "-" (p0 :: rest) ++ "T" ++ time_part)
        | [] => Err ValueError
        end
    | _ => Err ValueError          (* too many values to unpack *)
    end
  else Ok val.

(** [datetime.strptime(s, "%Y-%m-%dT%H:%M:%S")] (CPython, Lib/_strptime.py): the fields are
    separated by literals that no field contains, so the regular expression matches the whole
    text iff each field matches; literals match without regard to case. *)
(** utils/__init__.py:150 (CPython) *)
Definition digit (c : ascii) : option Z :=
  let n := Z.of_nat (nat_of_ascii c) in if ((48 <=? n) && (n <=? 57))%Z then Some (n - 48)%Z else None.
(** utils/__init__.py:150 (CPython) *)
Fixpoint number_from (acc : Z) (s : string) : option Z :=
  match s with
  | EmptyString => Some acc
  | String c t => match digit c with Some d => number_from (10 * acc + d) t | None => None end
  end.
(** a field of between [lo] and [hi] digits with a value in a range *)
(** utils/__init__.py:150 (CPython) *)
Definition field (lo hi : nat) (vlo vhi : Z) (s : string) : option Z :=
  if ((lo <=? String.length s) && (String.length s <=? hi))%nat then
    match number_from 0 s with
    | Some v => if ((vlo <=? v) && (v <=? vhi))%Z then Some v else None
    | None => None
    end
  else None.
(** %d also accepts a blank before a single digit *)
(** utils/__init__.py:150 (CPython) *)
Definition day_field (s : string) : option Z :=
  match s with
  | String " " (String c EmptyString) => field 1 1 1 9 (String c "")
  | _ => field 1 2 1 31 s
  end.
(** the Gregorian calendar of datetime (CPython), utils/__init__.py:150 *)
Definition leap (y : Z) : bool := ((y mod 4 =? 0) && (negb (y mod 100 =? 0) || (y mod 400 =? 0)))%Z.
(** the Gregorian calendar of datetime (CPython), utils/__init__.py:150 *)
Definition days_in_month (y m : Z) : Z :=
  if (m =? 2)%Z then (if leap y then 29 else 28)%Z
  else if ((m =? 4) || (m =? 6) || (m =? 9) || (m =? 11))%Z then 30%Z else 31%Z.
(** the constructor of datetime *)
(** utils/__init__.py:150 (CPython) *)
Definition make_datetime (y mo d h mi s us : Z) : res datetime :=
  if ((1 <=? y) && (y <=? 9999) && (1 <=? mo) && (mo <=? 12) && (1 <=? d) && (d <=? days_in_month y mo)
      && (0 <=? h) && (h <=? 23) && (0 <=? mi) && (mi <=? 59) && (0 <=? s) && (s <=? 59)
      && (0 <=? us) && (us <=? 999999))%Z
  then Ok (mkdt y mo d h mi s us) else Err ValueError.
(** split at the first T or t *)
(** utils/__init__.py:150 (CPython) *)
Fixpoint split_T (s : string) : option (string * string) :=
  match s with
  | EmptyString => None
  | String x t => if ceqb x "T" || ceqb x "t" then Some ("", t)
                  else match split_T t with Some (a, b) => Some (String x a, b) | None => None end
  end.
(** utils/__init__.py:150 (CPython) *)
Definition strptime (s : string) : res datetime :=
  match split_T s with
  | None => Err ValueError
  | Some (date, time) =>
      match split "-" date, split ":" time with
      | [y; mo; d], [h; mi; se] =>
          match field 4 4 0 9999 y, field 1 2 1 12 mo, day_field d, field 1 2 0 23 h, field 1 2 0 59 mi, field 1 2 0 61 se with
          | Some y, Some mo, Some d, Some h, Some mi, Some se => make_datetime y mo d h mi se 0
          | _, _, _, _, _, _ => Err ValueError
          end
      | _, _ => Err ValueError
      end
  end.
(** 123-151: the argument is missing (NaN, None, NaT), a datetime, or a string.
    [None] in the result stands for NaT. *)
Inductive date_in := DMissing | DDatetime (d : datetime) | DString (s : string).
(** utils/__init__.py:146-147: s.split(c)[0] *)
Definition head (l : list string) : string := match l with x :: _ => x | [] => "" end.
(** utils/__init__.py:123-150 *)
Definition robust_parse_datetime (x : date_in) : res (option datetime) :=
  match x with
  | DMissing => Ok None
  | DDatetime d => Ok (Some d)
  | DString s =>
      let s := head (split "Z" s) in
      let s := head (split "." s) in
      let? s := pad_year s in
      let? d := strptime s in Ok (Some d)
  end.

(** ** utils/coordinates.py *)
Section Coordinates.
  Context {T : Type} {N : Num T} {CRS : Type}.
  (** [Transformer.from_proj(a, b, always_xy=True).transform(x, y, z)]; without an altitude the
      third component of the result is None (pyproj returns a pair) *)
  Variable project : CRS -> CRS -> T -> T -> option T -> T * T * option T.
  (** a vertex, with or without an altitude *)
  (** coordinates.py:73-238 *)
  Definition point := (T * T * option T)%type.
  Record transformer := mktr { ref_easting : T; ref_northing : T; ref_altitude : T; local_proj : CRS; external_proj : CRS }.
  (** coordinates.py:30-74 *)
  Definition new_transformer (local : CRS) (re rn ra : T) (external : CRS) (ref_proj : option CRS) : transformer :=
    match ref_proj with
    | Some rp => let '(e, n, _) := project rp local re rn None in mktr e n ra local external
    | None => mktr re rn ra local external
    end.
  (** 76-119, one coordinate; lists are transformed elementwise *)
  Definition to_local_coords (tr : transformer) (lon lat : T) (altitude : option T) : point :=
    let '(e, n, a) := project (external_proj tr) (local_proj tr) lon lat altitude in
    let easting := nsub e (ref_easting tr) in
    let northing := nsub n (ref_northing tr) in
    (easting, northing, match altitude, a with Some _, Some a => Some (nsub a (ref_altitude tr)) | _, _ => None end).
  (** 121-171 *)
  Definition from_local_coords (tr : transformer) (easting northing : T) (altitude : option T) : point :=
    let e0 := nadd easting (ref_easting tr) in
    let n0 := nadd northing (ref_northing tr) in
    let a0 := match altitude with Some a => Some (nadd a (ref_altitude tr)) | None => None end in
    let '(x, y, z) := project (local_proj tr) (external_proj tr) e0 n0 a0 in
    match a0 with None => (x, y, None) | Some _ => (x, y, z) end.
  (** coordinates.py:73-111: arrays of coordinates *)
  Definition to_local_list (tr : transformer) (l : list point) : list point :=
    map (fun p => let '(x, y, z) := p in to_local_coords tr x y z) l.
  (** shapely.affinity.translate: an affine map with the unit matrix; zoff only if the
      geometry has altitudes *)
  (** coordinates.py:190-200, 225-238 (shapely) *)
  Definition translate_pt (xoff yoff zoff : T) (p : point) : point :=
    let '(x, y, z) := p in
    match z with
    | None => (nadd (nadd (nmul one x) (nmul zero y)) xoff, nadd (nadd (nmul zero x) (nmul one y)) yoff, None)
    | Some z => (nadd (nadd (nadd (nmul one x) (nmul zero y)) (nmul zero z)) xoff,
                 nadd (nadd (nadd (nmul zero x) (nmul one y)) (nmul zero z)) yoff,
                 Some (nadd (nadd (nadd (nmul zero x) (nmul zero y)) (nmul one z)) zoff))
    end.
  (** coordinates.py:163-238: shapely.ops.transform with the pyproj transformer *)
  Definition project_pt (a b : CRS) (p : point) : point := let '(x, y, z) := p in project a b x y z.
  (** exterior ring and holes *)
  Definition polygon := list (list point).
  (** 173-211 *)
  Definition polygon_to_local_coords (tr : transformer) (p : polygon) : polygon :=
    let new_polygon := map (map (project_pt (external_proj tr) (local_proj tr))) p in
    map (map (translate_pt (nopp (ref_easting tr)) (nopp (ref_northing tr)) (nopp (ref_altitude tr)))) new_polygon.
  (** 213-249 *)
  Definition polygon_from_local_coords (tr : transformer) (p : polygon) : polygon :=
    let translated := map (map (translate_pt (ref_easting tr) (ref_northing tr) (ref_altitude tr))) p in
    map (map (project_pt (local_proj tr) (external_proj tr))) translated.

  (** 252-277; [shapely.geometry.box(minx, miny, maxx, maxy, ccw=True)] *)
  Definition box (minx miny maxx maxy : T) : list (T * T) :=
    [(maxx, miny); (maxx, maxy); (minx, maxy); (minx, miny); (maxx, miny)].
  Definition bounding_box_to_polygon (x_min x_max y_min y_max : T) : list (T * T) := box x_min y_min x_max y_max.
  (** 280-300; [polygon.bounds], of the exterior ring *)
  Definition bounds (ring : list (T * T)) : option (T * T * T * T) :=
    match ring with
    | [] => None
    | (x, y) :: r => Some (amin x (map fst r), amin y (map snd r), amax x (map fst r), amax y (map snd r))
    end.
  (** coordinates.py:268-288 *)
  Definition polygon_to_bounding_box (ring : list (T * T)) : option (T * T * T * T) := bounds ring.
End Coordinates.

(** ** utils/filtering.py:5-41
    A table is the list of its rows, each an index label and the dictionary of its values; all
    rows have the same keys [columns]. *)
Section Filtering.
  Context {V I : Type}.
  (** filtering.py:5-42: rows with index labels *)
  Record table := mktable { columns : list string; rows : list (I * dict V) }.
  (** filtering.py:27-32: cat[c] = ... *)
  Definition set_column (t : table) (c : string) (f : dict V -> V) : table :=
    mktable (if mem c (columns t) then columns t else app (columns t) [c])
            (map (fun r => (fst r, dset (snd r) c (f (snd r)))) (rows t)).
  (** filtering.py:38: drop("inside_polygon", axis=True) *)
  Definition drop_column (t : table) (c : string) : table :=
    mktable (filter (fun k => negb (String.eqb k c)) (columns t))
            (map (fun r => (fst r, filter (fun kv => negb (String.eqb (fst kv) c)) (snd r))) (rows t)).
  Variables (intersects : list (V * V) -> V -> V -> bool) (of_bool : bool -> V) (truth : V -> bool).
  (** the row function looks up both columns (KeyError); on a table without rows,
      DataFrame.apply returns a copy of the whole table, which cannot be assigned to one column *)
  (** filtering.py:5-42 *)
  Definition cat_intersect_polygon (cat : table) (vertices : list (V * V)) : res table :=
    match rows cat with
    | [] => Err ValueError       (* for two columns or more *)
    | _ => if negb (mem "latitude" (columns cat) && mem "longitude" (columns cat)) then Err KeyError else
      let inside (row : dict V) :=
        match dget row "latitude", dget row "longitude" with
        | Some a, Some o => of_bool (intersects vertices a o)
        | _, _ => of_bool false
        end in
      let cat_copy := set_column cat "inside_polygon" inside in
      let kept := mktable (columns cat_copy)
        (filter (fun r => match dget (snd r) "inside_polygon" with Some v => truth v | None => false end) (rows cat_copy)) in
      Ok (drop_column kept "inside_polygon")
    end.
End Filtering.
Arguments table : clear implicits.
