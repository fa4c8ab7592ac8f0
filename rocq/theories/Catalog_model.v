(** * Model of seismostats/catalogs/catalog.py: classes, metadata, and the methods that call the
    analysis functions

    Not modelled: the values of pandas' own operations (an operation is given by the columns of
    its result), the conversion of columns in [Catalog.__init__] except the replacement of
    texts for missing values, loggers. *)
From Coq Require Import ZArith List Bool String Ascii.
From Verif Require Import Base Num StateM Dict Binning_model BValue_model AValue_model Mc_model Plots_model Utils_model.
Import ListNotations.
Open Scope string_scope.

(** ** Classes, columns and metadata *)
Definition catalog_columns := ["longitude"; "latitude"; "depth"; "time"; "magnitude"; "magnitude_type"].   (* 40-41 *)
Inductive cls := PlainFrame | IsCatalog | IsForecast.
(** 50-55 [_catalog_constructor_with_fallback], given a frame *)
Definition constructor_class (columns : list string) : cls :=
  if negb (check_required_cols columns ["magnitude"]) then PlainFrame
  else if negb (check_required_cols columns ["catalog_id"]) then IsCatalog
  else IsForecast.
(** 124-127, 1579-1580: the names in [_metadata]; [_required_cols] is the field [f_req] below and
    the logger is left out *)
Definition base_metadata := ["name"; "mc"; "a_value"; "delta_m"; "b_value"; "starttime"; "endtime"; "bounding_polygon"; "depth_min"; "depth_max"].
(** catalog.py:124-127, 1580: _metadata (without _required_cols, which is the field [f_req]) *)
Definition metadata (k : cls) : list string :=
  match k with PlainFrame => [] | IsCatalog => base_metadata | IsForecast => app base_metadata ["n_catalogs"] end.
(** the class attribute [_required_cols] *)
(** catalog.py:129, 1579 *)
Definition class_required (k : cls) : list string :=
  match k with PlainFrame => [] | IsCatalog => catalog_columns | IsForecast => app catalog_columns ["catalog_id"] end.

Section Frames.
  Context {V : Type}.
  (** [f_meta]: the attributes; None is Python's None.  [f_req]: what [self._required_cols] gives. *)
  (** catalog.py:58-204: a Catalog as far as its columns and attributes are concerned *)
  Record frame := mkframe { f_cls : cls; f_cols : list string; f_meta : string -> option V; f_req : list string }.
  (** catalog.py:138-204: all attributes None *)
  Definition none : string -> option V := fun _ => None.
  (** Catalog(data, ...), ForecastCatalog(data, ...) of data with columns; [attrs] are the arguments *)
  (** catalog.py:138-204, 1582-1585 [__init__] *)
  Definition new_catalog (k : cls) (columns : list string) (attrs : string -> option V) : frame :=
    mkframe k (match columns with [] => catalog_columns | _ => columns end) (fun n => if mem n (metadata k) then attrs n else None) (class_required k).
  (** 1518-1541 [__finalize__] and pandas' own, which copies the names both classes have *)
  Definition finalize (self other : frame) : frame :=
    mkframe (f_cls self) (f_cols self)
      (fun n => if mem n (metadata (f_cls self)) && mem n (metadata (f_cls other)) then f_meta other n else f_meta self n)
      (match f_cls self, f_cls other with PlainFrame, _ | _, PlainFrame => f_req self | _, _ => f_req other end).
  (** merge: the metadata of the left object; concat: of the first.  [getattr(other, name, None)]
      of a plain frame is None. *)
  (** catalog.py:1518-1541 [__finalize__] *)
  Definition finalize_from (self other : frame) : frame :=
    match f_cls self with
    | PlainFrame => self
    | k => mkframe k (f_cols self) (fun n => if mem n (metadata k) then (if mem n (metadata (f_cls other)) then f_meta other n else None) else f_meta self n)
             (match f_cls other with PlainFrame => [] | _ => f_req other end)
    end.
  (** what a pandas operation on [self] returns, if the result has the columns [columns] *)
  (** catalog.py:50-55 [_catalog_constructor_with_fallback] *)
  Definition construct (columns : list string) : frame :=
    match constructor_class columns with
    | PlainFrame => mkframe PlainFrame columns none []
    | k => new_catalog k columns none
    end.
  (** catalog.py:131-136 [_constructor] followed by 1518-1541 [__finalize__] *)
  Definition operation (self : frame) (columns : list string) : frame :=
    match f_cls self with
    | PlainFrame => mkframe PlainFrame columns none []
    | _ => finalize (construct columns) self
    end.
  (** merge of [left] with another frame, concat of a list starting with [first] *)
  (** catalog.py:1533-1541 *)
  Definition merge_concat (first : frame) (columns : list string) : frame :=
    match f_cls first with
    | PlainFrame => mkframe PlainFrame columns none []
    | _ => finalize_from (construct columns) first
    end.
  (** assignment and deletion of columns in place, assignment of attributes *)
  (** pandas: cat[c] = v, cat.a = v (no code of the repository involved) *)
  Definition set_columns (self : frame) (columns : list string) : frame := mkframe (f_cls self) columns (f_meta self) (f_req self).
  (** pandas: cat[c] = v, cat.a = v (no code of the repository involved) *)
  Definition set_attribute (self : frame) (name : string) (v : option V) : frame :=
    mkframe (f_cls self) (f_cols self) (fun n => if n =? name then v else f_meta self n) (f_req self).

  (** ** columns that are dropped *)
  (** [re.search(suffix + "$", s)]: [$] also matches before a final newline *)
  (** catalog.py:447-450, 464-465 (DataFrame.filter with a regular expression) *)
  Definition ends_with (suffix s : string) : bool :=
    let n := String.length suffix in let l := String.length s in
    (n <=? l)%nat && (substring (l - n) n s =? suffix).
  (** catalog.py:447-450, 464-465 (DataFrame.filter with a regular expression) *)
  Definition newline : string := String (ascii_of_nat 10) "".
  (** catalog.py:447-450, 464-465 (DataFrame.filter with a regular expression) *)
  Definition matches_end (suffixes : list string) (s : string) : bool :=
    existsb (fun x => ends_with x s || ends_with (x ++ newline) s) suffixes.
  (** catalog.py:447-448 *)
  Definition uncertainty_suffixes := ["_uncertainty"; "_lowerUncertainty"; "_upperUncertainty"; "_confidenceLevel"].
  (** catalog.py:464 *)
  Definition id_suffixes := ["eventID"; "originID"; "magnitudeID"].
  Definition drop_columns (self : frame) (p : string -> bool) : frame := operation self (filter (fun c => negb (p c)) (f_cols self)).
  (** 436-452, 454-467 *)
  Definition drop_uncertainties (self : frame) : frame := drop_columns self (matches_end uncertainty_suffixes).
  Definition drop_ids (self : frame) : frame := drop_columns self (matches_end id_suffixes).
  (** 469-484 [strip], with the decorator of the class Catalog *)
  Definition strip_columns (self : frame) (inplace : bool) : res (frame * option frame) :=
    if check_required_cols (f_cols self) catalog_columns then
      let kept := filter (fun c => mem c (f_req self)) (f_cols self) in
      if inplace then Ok (set_columns self kept, None) else Ok (self, Some (operation self kept))
    else Err AttributeError.
  (** 255-302 [from_dict]; [columns] are those of the frame made of the dictionaries; methods
      of a plain frame fail *)
  Definition from_dict (k : cls) (columns : list string) (include_uncertainties include_ids : bool) : res frame :=
    let df := new_catalog k columns none in
    let? df := if include_uncertainties then Ok df else Ok (drop_uncertainties df) in
    if include_ids then Ok df else match f_cls df with PlainFrame => Err AttributeError | _ => Ok (drop_ids df) end.
End Frames.
Arguments frame : clear implicits.

(** 194-203: texts that mean a missing value in the columns magnitude_type and event_type *)
Definition missing_texts := [""; "nan"; "NaN"; "none"; "None"; "na"; "Na"; "NA"; "null"; "Null"; "NULL"].
Definition clean_text (v : option string) : option string :=
  match v with Some s => if mem s missing_texts then None else Some s | None => None end.

(** ** 1605-1631 [_check_catalog_cols] *)
Definition is_s (c : ascii) : bool := Ascii.eqb c "s".
(** catalog.py:1621-1622 *)
Fixpoint drop_final_s (s : string) : string :=
  match s with
  | EmptyString => ""
  | String c EmptyString => if is_s c then "" else String c ""
  | String c t => String c (drop_final_s t)
  end.
(** catalog.py:1605-1631 *)
Definition check_catalog_cols {T} (method_args base_args : list string) (columns : dict (list T)) : dict (list T) :=
  let extra := filter (fun n => negb (mem n base_args)) method_args in
  let sing := map drop_final_s extra in
  fold_left (fun d p => match dget columns (snd p) with Some l => dset d (fst p) l | None => d end) (zip (app extra extra) (app sing extra)) [].
(** the parameter names of [calculate] (with self) *)
(** bvalue/base.py:28-33 (inspect.signature, catalog.py:1615-1616) *)
Definition b_base_args := ["self"; "magnitudes"; "mc"; "delta_m"; "weights"].
(** bvalue/base.py:28-33, positive.py:44-51, more_positive.py:48-55 *)
Definition b_args (k : kind) : list string :=
  match k with Classic | Utsu => b_base_args | BPositive | BMorePositive => app b_base_args ["times"; "dmc"] end.
(** avalue/base.py:24-30 *)
Definition a_base_args := ["self"; "magnitudes"; "mc"; "delta_m"; "scaling_factor"; "m_ref"; "b_value"].
(** avalue/base.py:24-30, avalue/positive.py:43-50, avalue/more_positive.py:41-48 *)
Definition a_args (k : akind) : list string :=
  match k with
  | AClassic => a_base_args
  | APositive => ["self"; "magnitudes"; "mc"; "delta_m"; "times"; "scaling_factor"; "m_ref"; "b_value"; "dmc"]
  | AMorePositive => ["self"; "magnitudes"; "mc"; "delta_m"; "times"; "b_value"; "scaling_factor"; "m_ref"; "dmc"]
  end.

Section Methods.
  Context {T : Type} {N : Num T}.
  (** columns of numbers (times are numbers, other columns do not matter here) and the attributes *)
  (** catalog.py:58-204 for the methods 487-1408 *)
  Record catalog := mkcat { c_cols : dict (list T); c_mc : option T; c_delta : option dec; c_b : option T; c_a : option T }.
  (** assignment to self.magnitude, self.mc, self.delta_m, self.b_value, self.a_value (catalog.py:527-528, 945, 1069 and the methods estimate_mc_*, 534-830) *)
  Definition set_cols c v := mkcat v (c_mc c) (c_delta c) (c_b c) (c_a c).
  (** assignment to self.magnitude, self.mc, self.delta_m, self.b_value, self.a_value (catalog.py:527-528, 945, 1069 and the methods estimate_mc_*, 534-830) *)
  Definition set_mc c v := mkcat (c_cols c) v (c_delta c) (c_b c) (c_a c).
  (** assignment to self.magnitude, self.mc, self.delta_m, self.b_value, self.a_value (catalog.py:527-528, 945, 1069 and the methods estimate_mc_*, 534-830) *)
  Definition set_delta c v := mkcat (c_cols c) (c_mc c) v (c_b c) (c_a c).
  (** assignment to self.magnitude, self.mc, self.delta_m, self.b_value, self.a_value (catalog.py:527-528, 945, 1069 and the methods estimate_mc_*, 534-830) *)
  Definition set_b c v := mkcat (c_cols c) (c_mc c) (c_delta c) v (c_a c).
  (** assignment to self.magnitude, self.mc, self.delta_m, self.b_value, self.a_value (catalog.py:527-528, 945, 1069 and the methods estimate_mc_*, 534-830) *)
  Definition set_a c v := mkcat (c_cols c) (c_mc c) (c_delta c) (c_b c) v.
  (** require_cols(['magnitude']) *)
  Definition with_magnitude {X} (f : list T -> SM catalog X) : SM catalog X := fun c =>
    match dget (c_cols c) "magnitude" with Some m => f m c | None => (c, Err AttributeError) end.

  (** 486-531 [bin_magnitudes]; a copy has the same columns and attributes *)
  Definition bin_magnitudes (delta : option dec) (inplace : bool) : SM catalog (option catalog) :=
    with_magnitude (fun mags c =>
      match delta, c_delta c with
      | None, None => (c, Err ValueError)
      | _, _ =>
          let delta := match delta with Some d => Some d | None => c_delta c end in
          match delta with
          | None => (c, Err ValueError)
          | Some d =>
              match bin_to_precision (Some mags) d with
              | Err e => (c, Err e)
              | Ok mags' =>
                  let df := set_delta (set_cols c (dset (c_cols c) "magnitude" mags')) (Some d) in
                  if inplace then (df, Ok None) else (c, Ok (Some df))
              end
          end
      end).

  (** 533-608 *)
  Definition cat_mc_maxc (fmd_bin : dec) (correction : T) : SM catalog T :=
    with_magnitude (fun mags c =>
      match estimate_mc_maxc mags fmd_bin correction with
      | Err e => (c, Err e)
      | Ok mc => (set_mc c (Some mc), Ok mc)
      end).
  (** 610-712 *)
  Definition cat_mc_b_stability (srt : list T -> list nat) (k : kind) (dmc : @bkwargs T) (draws : nat -> list (list nat)) (w : bool)
             (delta : option dec) (mcs_test : option (list T)) (stop : bool) (range : T) : SM catalog (stab_result T) :=
    with_magnitude (fun mags c =>
      match delta, c_delta c with
      | None, None => (c, Err ValueError)
      | None, Some d | Some d, _ =>
          match estimate_mc_b_stability srt k dmc draws w mags d mcs_test stop range with
          | Err e => (c, Err e)
          | Ok r => (set_mc c (st_mc r), Ok r)
          end
      end).
  (** 714-829 *)
  Definition cat_mc_ks (srt : list T -> list nat) (k : kind) (dmc : @bkwargs T) (u e : nat -> nat -> nat -> T) (w : bool)
             (delta : option dec) (mcs_test : option (list T)) (p_pass : T) (stop : bool) (b : option T) (n : nat)
             (ks_ds_list : option (list (list T))) : SM catalog (ks_result T) :=
    with_magnitude (fun mags c =>
      match delta, c_delta c with
      | None, None => (c, Err ValueError)
      | None, Some d | Some d, _ =>
          let b := match b with None => match c_b c with Some v => Some v | None => None end | Some v => Some v end in
          match estimate_mc_ks srt k dmc u e w mags d mcs_test p_pass stop b n ks_ds_list with
          | Err x => (c, Err x)
          | Ok r => (set_mc c (option_map fst (ks_best r)), Ok r)
          end
      end).

  (** 831-947.  [kw_times], [kw_dmc]: keyword arguments, if given.  A column dmc reaches the
      comparison [dmc < 0] as a Series: ValueError. *)
  Record kwargs_b := mkkwb { kw_times : option (option (list T)); kw_dmc : option (option T) }.
  (** catalog.py:935: has a keyword of the positive classes been given *)
  Definition given_b (kw : kwargs_b) : bool := match kw_times kw, kw_dmc kw with None, None => false | _, _ => true end.
  (** catalog.py:832-948 *)
  Definition cat_estimate_b (srt : list T -> list nat) (wn : bool) (mc : option T) (delta : option dec) (weights : option (list T)) (k : kind)
             (kw : kwargs_b) : SM catalog (@obj T) :=
    with_magnitude (fun mags c =>
      match mc, c_mc c with
      | None, None => (c, Err ValueError)
      | None, Some mc | Some mc, _ =>
        match delta, c_delta c with
        | None, None => (c, Err ValueError)
        | None, Some delta | Some delta, _ =>
          let weights := match weights with Some w => Some w | None => dget (c_cols c) "weight" end in
          let cols := check_catalog_cols (b_args k) b_base_args (c_cols c) in
          if match k with Classic | Utsu => given_b kw | _ => false end then (c, Err TypeError)
          else
            let times := match kw_times kw with Some t => t | None => dget cols "times" end in
            match kw_dmc kw, dget cols "dmc" with
            | None, Some _ => (c, Err ValueError)
            | kd, _ =>
              let dmc := match kd with Some d => d | None => None end in
              let '(o, r) := calculate srt k wn (mkargs mags mc delta weights times dmc) new_obj in
              match r with
              | Err e => (c, Err e)
              | Ok _ => match b_value o with Err e => (c, Err e) | Ok b => (set_b c (Some b), Ok o) end
              end
            end
        end
      end).

  (** 949-1071.  Without [times] the positive methods lack an argument: TypeError.  The
      comparison of a column dmc comes after the check of the b-value. *)
  Record kwargs_a := mkkwa { kwa_times : option (list T); kwa_dmc : option (option T) }.
  (** catalog.py:1057 *)
  Definition given_a (kw : kwargs_a) : bool := match kwa_times kw, kwa_dmc kw with None, None => false | _, _ => true end.
  Definition cat_estimate_a (srt : list T -> list nat) (wn : bool) (mc : option T) (delta : option dec) (scaling mref b : option T) (k : akind)
             (kw : kwargs_a) : SM catalog (@aobj T) :=
    with_magnitude (fun mags c =>
      match mc, c_mc c with
      | None, None => (c, Err ValueError)
      | None, Some mc | Some mc, _ =>
        match delta, c_delta c with
        | None, None => (c, Err ValueError)
        | None, Some delta | Some delta, _ =>
          let cols := check_catalog_cols (a_args k) a_base_args (c_cols c) in
          if match k with AClassic => given_a kw | _ => false end then (c, Err TypeError)
          else
            let times := match kwa_times kw with Some t => Some t | None => dget cols "times" end in
            match k, times with
            | APositive, None | AMorePositive, None => (c, Err TypeError)
            | _, _ =>
              match kwa_dmc kw, dget cols "dmc" with
              | None, Some _ => (c, Err ValueError)
              | kd, _ =>
                let dmc := match kd with Some d => d | None => None end in
                let ts := match times with Some t => t | None => [] end in
                let '((o, _), r) := a_calculate srt k wn (mkaargs mags mc delta scaling mref b ts dmc) (new_aobj, []) in
                match r with
                | Err e => (c, Err e)
                | Ok _ => match a_value o with Err e => (c, Err e) | Ok v => (set_a c (Some v), Ok o) end
                end
              end
            end
        end
      end).

  (** 1252-1335 [plot_cum_fmd] *)
  Definition cat_plot_cum_fmd (mc : option T) (fmd_bin : option dec) (weights : option (list T)) (b : option T) (pos : binpos) : SM catalog (@cum_plot T) :=
    with_magnitude (fun mags c =>
      let fmd_bin := match fmd_bin with None => c_delta c | Some d => Some d end in
      let mc := match mc with None => c_mc c | Some v => Some v end in
      let b := match b with None => c_b c | Some v => Some v end in
      (c, plot_cum_fmd mags mc fmd_bin weights b pos)).
  (** 1322-1364 [plot_fmd]; 1150-1195 [plot_cum_count], which needs the columns time and
      magnitude.  [plot_in_space], [plot_mags_in_time] and [plot_mc_vs_b]: CatalogPlots_model.v. *)
  Definition cat_plot_fmd (fmd_bin : dec) (weights : option (list T)) (pos : binpos) : SM catalog (list (T * T)) :=
    with_magnitude (fun mags c => (c, plot_fmd mags fmd_bin weights pos)).
  (** catalog.py:1151-1196 *)
  Definition cat_plot_cum_count (srt : list T -> list nat) (mcs : option (list T)) (delta : option dec) (weights : option (list T)) (normalize : bool)
             (colours : option nat) : SM catalog (list (option (list (T * T)))) := fun c =>
    match dget (c_cols c) "time", dget (c_cols c) "magnitude" with
    | Some times, Some mags =>
        let delta := match delta with None => c_delta c | Some d => Some d end in
        (c, plot_cum_count srt times mags mcs (option_map dec_val delta) weights normalize colours)
    | _, _ => (c, Err AttributeError)
    end.
End Methods.
Arguments catalog : clear implicits.
