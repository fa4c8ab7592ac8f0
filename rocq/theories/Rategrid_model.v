(** * Model of seismostats/catalogs/rategrid.py

    A frame is given by the names of its index levels, the index values of each row, its columns,
    and its rows; all values are numbers (times too), missing ones NaN.  Columns that are not
    numbers take no part in what is modelled here.  Not modelled: pandas' own operations beyond
    the rows and columns of their result, [strip] (the same code as in Catalog_model). *)
From Coq Require Import ZArith List Bool String.
From Verif Require Import Base Num Dict Utils_model.
Import ListNotations.
Open Scope string_scope.

(** 10-15, 273-275 *)
Definition bound_columns := ["longitude_min"; "longitude_max"; "latitude_min"; "latitude_max"; "depth_min"; "depth_max"].
Definition grid_columns := app bound_columns ["a"; "b"; "mc"].
Inductive gcls := PlainGrid | IsGrid | IsForecastGrid.
(** 18-24 *)
Definition grid_class (columns : list string) : gcls :=
  if negb (check_required_cols columns grid_columns) then PlainGrid
  else if negb (check_required_cols columns ["grid_id"]) then IsGrid
  else IsForecastGrid.

Section Unique.
  Context {A : Type} (same : A -> A -> bool).
  (** numpy's _unique1d on sorted values: a value starts a new group unless it equals the one
      before; the group numbers are the cumulated sums of the starts minus one *)
  Fixpoint group_numbers_from (prev : A) (k : nat) (l : list A) : list nat :=
    match l with
    | [] => []
    | x :: t => let k' := if same prev x then k else S k in k' :: group_numbers_from x k' t
    end.
  (** rategrid.py:277-278: np.unique(..., return_inverse=True) *)
  Definition group_numbers (l : list A) : list nat :=
    match l with [] => [] | x :: t => 0%nat :: group_numbers_from x 0 t end.
  (** inv_idx[perm] = group numbers: the number at position [perm[j]] is the j-th *)
  (** rategrid.py:277-278 (numpy) *)
  Fixpoint position (i : nat) (perm : list nat) : option nat :=
    match perm with [] => None | p :: t => if (p =? i)%nat then Some 0%nat else option_map S (position i t) end.
  (** np.unique(rows, axis=0, return_inverse=True)[1]; [perm] is the argsort of the rows *)
  Definition unique_inverse (argsort : list A -> list nat) (rows : list A) : res (list nat) :=
    let perm := argsort rows in
    let? aux := gather rows perm in
    let numbers := group_numbers aux in
    Ok (map (fun i => match position i perm with Some j => nth j numbers 0%nat | None => 0%nat end) (seq 0 (List.length rows))).
End Unique.

Section Grid.
  Context {T : Type} {N : Num T}.
  (** comparison of records of numbers: != if some field differs (NaN differs from NaN; equal_nan
      has no effect on records) *)
  (** rategrid.py:277-278 (numpy) *)
  Fixpoint same_row (r s : list T) : bool :=
    match r, s with
    | [], [] => true
    | x :: r', y :: s' => neqb x y && same_row r' s'
    | _, _ => false
    end.
  (** rategrid.py:27-100: a data frame with its index *)
  Record table := mktab { t_names : list string; t_index : list (list T); t_columns : list string; t_rows : list (dict T) }.
  (** rategrid.py:273-275: the bounds of a row *)
  Definition cell (row : dict T) (c : string) : T := match dget row c with Some v => v | None => nnan end.
  (** rategrid.py:273-275: the bounds of a row *)
  Definition bounds (row : dict T) : list T := map (cell row) bound_columns.
  (** index.nlevels: rategrid.py:157-161, 474 *)
  Definition nlevels (t : table) : nat := List.length (t_names t).
  (** the level at the position of the first [name] *)
  (** rategrid.py:272, 281-290: index names *)
  Fixpoint level_pos (name : string) (names : list string) : option nat :=
    match names with [] => None | n :: t => if (n =? name)%string then Some 0%nat else option_map S (level_pos name t) end.
  (** rategrid.py:281: droplevel *)
  Definition drop_nth {A} (i : nat) (l : list A) : list A := app (firstn i l) (skipn (S i) l).
  (** rategrid.py:286-290: index.get_level_values *)
  Definition level_values (t : table) (name : string) : list T :=
    match level_pos name (t_names t) with
    | None => []
    | Some i => map (fun ix => nth i ix nnan) (t_index t)
    end.
  (** Index.min / max: NaT is skipped, None of nothing *)
  (** rategrid.py:286-290 *)
  Definition level_min (l : list T) : option T :=
    match filter (fun x => negb (nisnan x)) l with [] => None | x :: r => Some (fold_left (fun a b => if nltb b a then b else a) r x) end.
  (** rategrid.py:286-290 *)
  Definition level_max (l : list T) : option T :=
    match filter (fun x => negb (nisnan x)) l with [] => None | x :: r => Some (fold_left (fun a b => if nltb a b then b else a) r x) end.

  (** rategrid.py:27-100, 377-380: the grid with its attributes *)
  Record grid := mkgrid { g_cls : gcls; g_tab : table; g_name : option string; g_start : option T; g_end : option T; g_n : option nat }.
  Variable argsort : list (list T) -> list nat.     (* the sort in np.unique *)

  (** 264-290 [_reindex_cell_id] *)
  Definition reindex_cell_id (g : grid) : res grid :=
    let t := g_tab g in
    if negb (check_required_cols (t_columns t) grid_columns) then Err AttributeError
    else
      let? t' := match level_pos "cell_id" (t_names t) with
                 | None => Ok t
                 | Some i =>
                     let? cells := unique_inverse same_row argsort (map bounds (t_rows t)) in
                     Ok (mktab (app (drop_nth i (t_names t)) ["cell_id"]) (map2 (fun ix c => app (drop_nth i ix) [ofnat c]) (t_index t) cells)
                               (t_columns t) (t_rows t))
                 end in
      if mem "starttime" (t_names t') then
        let starts := level_values t' "starttime" in
        let fin := if mem "endtime" (t_names t') then level_max (level_values t' "endtime") else level_max starts in
        Ok (mkgrid (g_cls g) t' (g_name g) (level_min starts) fin (g_n g))
      else Ok (mkgrid (g_cls g) t' (g_name g) (g_start g) (g_end g) (g_n g)).
  (** 82-100, 377-380 [__init__] *)
  Definition new_grid (k : gcls) (t : table) (name : option string) (start fin : option T) (n : option nat) : res grid :=
    let g := mkgrid k t name start fin n in
    if (1 <? nlevels t)%nat then match reindex_cell_id g with Err AttributeError => Ok g | r => r end else Ok g.
  (** 18-24 *)
  Definition construct_grid (t : table) : res grid :=
    match grid_class (t_columns t) with
    | PlainGrid => Ok (mkgrid PlainGrid t None None None None)
    | k => new_grid k t None None None None
    end.
  (** 292-311: pandas' finalize copies the names both classes have, in the same way for concat *)
  Definition finalize_grid (g other : grid) : grid :=
    match g_cls g, g_cls other with
    | PlainGrid, _ | _, PlainGrid => g
    | k, k' => mkgrid k (g_tab g) (g_name other) (g_start other) (g_end other)
                 (match k, k' with IsForecastGrid, IsForecastGrid => g_n other | _, _ => g_n g end)
    end.
  (** a pandas operation on [g] with the result [t] *)
  (** rategrid.py:18-24, 82-104, 292-311 *)
  Definition grid_operation (g : grid) (t : table) : res grid :=
    match g_cls g with
    | PlainGrid => Ok (mkgrid PlainGrid t None None None None)
    | _ => let? r := construct_grid t in Ok (finalize_grid r g)
    end.

  (** 204-262 [add_time_index] for an index of one level.  The new index values come first. *)
  Definition add_time_index (g : grid) (endtime : bool) : res grid :=
    let t := g_tab g in
    if negb (check_required_cols (t_columns t) grid_columns) then Err AttributeError
    else match g_start g with
         | None => Err AttributeError
         | Some s =>
             match g_end g, endtime with
             | None, true => Err AttributeError
             | e, _ =>
                 let times := if endtime then [s; match e with Some x => x | None => nnan end] else [s] in
                 let names := if endtime then ["starttime"; "endtime"] else ["starttime"] in
                 grid_operation g (mktab (app names ["cell_id"]) (map (app times) (t_index t)) (t_columns t) (t_rows t))
             end
         end.
  (** pd.concat of frames with the same index names: the rows one after the other; the columns
      are those of all frames in order of appearance *)
  (** rategrid.py:159, 162: pd.concat (pandas) *)
  Definition union_columns (a b : list string) : list string := app a (filter (fun c => negb (mem c a)) b).
  (** rategrid.py:159, 162: pd.concat (pandas) *)
  Definition concat_tables (ts : list table) : res table :=
    match ts with
    | [] => Err ValueError
    | t :: rest => Ok (mktab (t_names t) (concat (map t_index ts)) (fold_left union_columns (map t_columns rest) (t_columns t)) (concat (map t_rows ts)))
    end.
  (** helper of the model: a list comprehension whose element function may raise *)
  Fixpoint mapM_r {A B} (f : A -> res B) (l : list A) : res (list B) :=
    match l with [] => Ok [] | x :: t => let? y := f x in let? ys := mapM_r f t in Ok (y :: ys) end.
  (** rategrid.py:159, 162 *)
  Definition pd_concat (gs : list grid) : res grid :=
    let? t := concat_tables (map g_tab gs) in
    match gs with [] => Err ValueError | g :: _ => grid_operation g t end.
  (** 106-165 [concat] of the class [k]; level counts 2 and 3 with the same names *)
  Definition has_end (g : grid) : bool := match g_end g with Some _ => true | None => false end.
  Definition concat_grids (k : gcls) (gs : list grid) : res grid :=
    if forallb (fun g => (nlevels (g_tab g) =? 1)%nat) gs then
      let endtime := forallb has_end gs in
      let? gs' := mapM_r (fun g => add_time_index g endtime) gs in
      let? g := pd_concat gs' in
      new_grid k (g_tab g) None None None None
    else if forallb (fun g => (nlevels (g_tab g) =? 2)%nat) gs || forallb (fun g => (nlevels (g_tab g) =? 3)%nat) gs then
      let? g := pd_concat gs in
      new_grid k (g_tab g) None None None None
    else Err ValueError.

  (** ** 382-488 [calculate_statistics] *)
  (** DataFrame.dropna(axis=1, how='all'); a frame without rows loses all columns *)
  Definition nonempty_columns (t : table) : list string :=
    filter (fun c => existsb (fun row => negb (nisnan (cell row c))) (t_rows t)) (t_columns t).
  (** [numeric] says which columns are numbers; [stats] are the extra statistics *)
  (** rategrid.py:458 *)
  Definition base_columns := ["number_events"; "b"; "mc"; "a"; "alpha"].
  (** (column of the result, column of the data, function) *)
  (** rategrid.py:459-471 *)
  Definition agg_plan (cols : list string) (agg : list T -> T) (stats : list (string * (list T -> T))) : list (string * (string * (list T -> T))) :=
    app (map (fun c => (c, (c, agg))) cols)
        (snd (fold_left (fun st sf =>
           fold_left (fun st c => let '(cs, plan) := st in
             let d := c ++ "_" ++ fst sf in
             if mem d cs then st else (app cs [d], app plan [(d, (c, snd sf))]))
             (filter (fun c => mem c cols) base_columns) st) stats (cols, []))).
  (** groupby: the distinct keys without NaN, in increasing order, each with its rows in order *)
  (** rategrid.py:474-481: groupby on the bounds (pandas) *)
  Fixpoint row_le (r s : list T) : bool :=
    match r, s with
    | [], _ => true
    | _ :: _, [] => false
    | x :: r', y :: s' => nltb x y || (neqb x y && row_le r' s')
    end.
  (** rategrid.py:474-481: groupby on the bounds (pandas) *)
  Definition no_nan (r : list T) : bool := forallb (fun x => negb (nisnan x)) r.
  (** rategrid.py:474-481: groupby on the bounds (pandas) *)
  Fixpoint dedup (l : list (list T)) : list (list T) :=
    match l with [] => [] | x :: t => x :: filter (fun y => negb (same_row x y)) (dedup t) end.
  (** rategrid.py:474-481: groupby on the bounds (pandas) *)
  Definition group_keys (keys : list (list T)) : list (list T) := isort row_le (dedup (filter no_nan keys)).
  (** rategrid.py:474-481: groupby on the bounds (pandas) *)
  Definition group_rows (keys : list (list T)) (rows : list (dict T)) (k : list T) : list (dict T) :=
    map snd (filter (fun p => same_row (fst p) k) (zip keys rows)).
  (** rategrid.py:382-488 *)
  Definition calculate_statistics (g : grid) (agg : list T -> T) (stats : list (string * (list T -> T))) : res (list (list T * dict T)) :=
    let t := g_tab g in
    let cols := nonempty_columns t in
    let plan := agg_plan cols agg stats in
    let summary (keys : list (list T)) :=
      map (fun k => (k, filter (fun kv => negb (fst kv =? "grid_id")%string)
                          (map (fun p => (fst p, snd (snd p) (map (fun row => cell row (fst (snd p))) (group_rows keys (t_rows t) k)))) plan)))
          (group_keys keys) in
    if (nlevels t =? 1)%nat then
      if check_required_cols cols bound_columns then Ok (summary (map bounds (t_rows t))) else Err KeyError
    else Ok (summary (t_index t)).
End Grid.
Arguments table : clear implicits.
Arguments grid : clear implicits.
