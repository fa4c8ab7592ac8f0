(** * What a user expects of rate grids, without the code's helpers *)
From Coq Require Import Reals List Bool String Sorted Permutation.
From Verif Require Import Base Num XR Dict Spec_Catalog Rategrid_model.
Import ListNotations.
Open Scope string_scope.

(** ** rows of numbers in lexicographic order, missing numbers last *)
Definition before (x y : xr) : Prop :=
  match x, y with
  | NaN, _ => False
  | _, NaN => True
  | NInf, NInf => False | NInf, _ => True
  | _, NInf => False
  | PInf, _ => False
  | Fin _, PInf => True
  | Fin a, Fin b => (a < b)%R
  end.
Fixpoint row_before (r s : list xr) : Prop :=
  match r, s with
  | x :: r', y :: s' => before x y \/ (x = y /\ row_before r' s')
  | _, _ => False
  end.
Definition row_not_after (rows : list (list xr)) (i j : nat) : Prop :=
  forall r s, nth_error rows i = Some r -> nth_error rows j = Some s -> row_before r s \/ r = s.
(** what a sort of rows promises (the order of equal rows is not specified) *)
Definition sorts_rows (srt : list (list xr) -> list nat) : Prop :=
  forall rows, (forall r s, In r rows -> In s rows -> length r = length s) ->
    Permutation (srt rows) (seq 0 (length rows)) /\ StronglySorted (row_not_after rows) (srt rows).
Definition complete_row (r : list xr) : Prop := ~ In NaN r.

(** the six bounds of a cell *)
Definition cell_bounds (row : dict xr) : list xr :=
  map (fun c => match dget row c with Some v => v | None => NaN end)
      ["longitude_min"; "longitude_max"; "latitude_min"; "latitude_max"; "depth_min"; "depth_max"].
Definition required_columns := ["longitude_min"; "longitude_max"; "latitude_min"; "latitude_max"; "depth_min"; "depth_max"; "a"; "b"; "mc"].

(** an index: one value for each level in each row, levels with different names *)
Definition well_indexed (t : table xr) : Prop :=
  NoDup (t_names t) /\ length (t_index t) = length (t_rows t) /\ Forall (fun ix => length ix = length (t_names t)) (t_index t).
(** the values of the level [name], row by row *)
Inductive level_of (t : table xr) (name : string) : list xr -> Prop :=
| level_of_intro i vs : nth_error (t_names t) i = Some name ->
    Forall2 (fun ix v => nth_error ix i = Some v) (t_index t) vs -> level_of t name vs.
Definition id_of (n : nat) : xr := Fin (INR n).

(** the cell numbers [ids] of [rows]: consecutive numbers from 0 on, in the order of the bounds,
    the same for two rows exactly if both have the same bounds, all known *)
Definition numbers_cells (rows : list (dict xr)) (ids : list nat) : Prop :=
  length ids = length rows /\
  (forall i j r s a b, nth_error rows i = Some r -> nth_error rows j = Some s -> nth_error ids i = Some a -> nth_error ids j = Some b ->
     (a = b <-> i = j \/ (cell_bounds r = cell_bounds s /\ complete_row (cell_bounds r))) /\
     (row_before (cell_bounds r) (cell_bounds s) -> (a < b)%nat)) /\
  (forall b m, In b ids -> (m < b)%nat -> In m ids).

(** [o] is the least (greatest) of the known values of [l], absent if there are none *)
Definition least (l : list xr) (o : option xr) : Prop :=
  match o with
  | None => forall x, In x l -> x = NaN
  | Some m => In m l /\ m <> NaN /\ forall x, In x l -> x = NaN \/ x = m \/ before m x
  end.
Definition greatest (l : list xr) (o : option xr) : Prop :=
  match o with
  | None => forall x, In x l -> x = NaN
  | Some m => In m l /\ m <> NaN /\ forall x, In x l -> x = NaN \/ x = m \/ before x m
  end.

(** the rows of [gs] one after the other, each with the value [f] has for its grid *)
Definition all_rows (gs : list (grid xr)) : list (dict xr) := concat (map (fun g => t_rows (g_tab g)) gs).
Definition for_each_row (f : grid xr -> xr) (gs : list (grid xr)) : list xr :=
  concat (map (fun g => map (fun _ => f g) (t_rows (g_tab g))) gs).
(** a rate grid: an object of one of the two classes with the nine columns, with one value of each
    index level for each row *)
Definition rate_grid (g : grid xr) : Prop :=
  g_cls g <> PlainGrid /\ incl required_columns (t_columns (g_tab g)) /\ well_indexed (g_tab g).
(** the start and end recorded for a grid (NaN: none) *)
Definition the_start (g : grid xr) : xr := match g_start g with Some s => s | None => NaN end.
Definition the_end (g : grid xr) : xr := match g_end g with Some s => s | None => NaN end.
Definition index_levels (g : grid xr) : nat := length (t_names (g_tab g)).

(** ** statistics *)
Definition value (c : string) (row : dict xr) : xr := match dget row c with Some v => v | None => NaN end.
(** a column with a known value *)
Definition known_column (g : grid xr) (c : string) : Prop :=
  In c (t_columns (g_tab g)) /\ exists row, In row (t_rows (g_tab g)) /\ value c row <> NaN.
(** the columns extra statistics are given for *)
Definition gr_columns := ["number_events"; "b"; "mc"; "a"; "alpha"].
(** [d] is the summary of [rows]: the aggregate of each known column (but not of the number of the
    realization) and the extra statistics, named <column>_<suffix>, where there is no such column *)
Definition summarises (g : grid xr) (agg : list xr -> xr) (stats : list (string * (list xr -> xr))) (rows : list (dict xr)) (d : dict xr) : Prop :=
  (forall c, known_column g c -> c <> "grid_id" -> dget d c = Some (agg (map (value c) rows))) /\
  (forall sfx f c, In (sfx, f) stats -> In c gr_columns -> known_column g c -> ~ known_column g (c ++ "_" ++ sfx) ->
     dget d (c ++ "_" ++ sfx) = Some (f (map (value c) rows))) /\
  (forall x, dget d x <> None -> x <> "grid_id" /\ (known_column g x \/ exists sfx f c, In (sfx, f) stats /\ In c gr_columns /\ known_column g c /\ x = c ++ "_" ++ sfx)).
(** [rs] has one summary for each key without unknown parts, in increasing order, of the rows
    with that key in their order *)
Definition grouped (keys : list (list xr)) (rows : list (dict xr)) (summary : list (dict xr) -> dict xr -> Prop) (rs : list (list xr * dict xr)) : Prop :=
  StronglySorted row_before (map fst rs) /\
  (forall k, In k (map fst rs) <-> In k keys /\ complete_row k) /\
  (forall k d, In (k, d) rs -> exists sel, selected (fun p => fst p = k) (combine keys rows) sel /\ summary (map snd sel) d).
