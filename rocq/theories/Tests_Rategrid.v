(** Tests of the rate grid model on the data of catalogs/tests/test_rategrid.py. *)
From Coq Require Import ZArith List Floats Bool String.
From Verif Require Import Base Num FloatInst Dict Rategrid_model.
Import ListNotations.
Open Scope string_scope.
(** the rows are complete here, so that the order of NaN does not matter *)
Definition fsort (rows : list (list float)) : list nat :=
  isort (fun i j => row_le (nth i rows []) (nth j rows [])) (seq 0 (List.length rows)).
Definition cols := app grid_columns ["number_events"; "grid_id"].
Definition frow (lo la de ne a b mc gid : float) : dict float :=
  [("longitude_min", lo); ("longitude_max", (lo + 1)%float); ("latitude_min", la); ("latitude_max", (la + 1)%float); ("depth_min", de); ("depth_max", (de + 10)%float);
   ("number_events", ne); ("a", a); ("b", b); ("mc", mc); ("grid_id", gid)].
Definition data3 : list (dict float) :=
  [frow 9 45 10 5 0.8 0.95 1.2 0; frow 9 45 10 6 0.9 1.0 1.2 1; frow 10 46 20 10 1.0 1.05 1.3 0; frow 10 46 20 12 1.1 1.1 1.3 1]%float.
Definition g3 (s e : float) : grid float := mkgrid IsForecastGrid (mktab ["index"] (map (fun i => [i]) [0; 1; 2; 3]%float) cols data3) None (Some s) (Some e) None.
Definition ids (r : res (grid float)) : list float := match r with Ok g => level_values (g_tab g) "cell_id" | Err _ => [] end.
Definition eql (l m : list float) : bool := (Nat.eqb (List.length l) (List.length m) && forallb (fun p => PrimFloat.eqb (fst p) (snd p)) (combine l m))%bool.
(** test_rategrid_concat *)
Example t_concat3 : match concat_grids fsort IsGrid [g3 1 2; g3 2 3]%float with
  | Ok g => (Nat.eqb (nlevels (g_tab g)) 3 && Nat.eqb (List.length (t_rows (g_tab g))) 8 && Nat.eqb (List.length (t_columns (g_tab g))) 11 && eql (level_values (g_tab g) "cell_id") [0; 0; 1; 1; 0; 0; 1; 1]%float)%bool
  | Err _ => false end = true.
Proof. vm_compute. reflexivity. Qed.
Example t_concat2 : match add_time_index fsort (g3 1 2)%float false, add_time_index fsort (g3 2 3)%float false, add_time_index fsort (g3 1 2)%float true with
  | Ok a, Ok b, Ok c => match concat_grids fsort IsGrid [a; b], concat_grids fsort IsGrid [c; b] with Ok g, Err ValueError => Nat.eqb (nlevels (g_tab g)) 2 | _, _ => false end
  | _, _, _ => false end = true.
Proof. vm_compute. reflexivity. Qed.
(** test_rategrid_time_index: the numbers after pd.concat, and the times of the first grid *)
Definition rows_at (los : list float) := map (fun lo => frow lo 45 1 0 1 1 1 0)%float los.
Definition g4 (s e : float) (los : list float) : grid float := mkgrid IsForecastGrid (mktab ["index"] (map (fun i => [i]) [0; 1; 2; 3]%float) cols (rows_at los)) None (Some s) (Some e) None.
Example t_time_index : match add_time_index fsort (g4 1 2 [9; 10; 11; 12])%float false, add_time_index fsort (g4 3 4 [10; 11; 12; 9])%float false with
  | Ok a, Ok b => match pd_concat fsort [a; b] with
       | Ok g => (eql (level_values (g_tab g) "cell_id") [0; 1; 2; 3; 1; 2; 3; 0]%float && match g_start g, g_end g, g_end b with Some s, Some e, Some e2 => PrimFloat.eqb s 1 && PrimFloat.eqb e 2 && PrimFloat.eqb e2 4 | _, _, _ => false end)%bool
       | _ => false end
  | _, _ => false end = true.
Proof. vm_compute. reflexivity. Qed.
(** test_forecast_rategrid_statistics *)
Definition mean (l : list float) : float := (fold_left PrimFloat.add l 0 / PrimFloat.of_uint63 (Uint63.of_Z (Z.of_nat (List.length l))))%float.
Definition std (l : list float) : float :=
  let m := mean l in PrimFloat.sqrt (fold_left PrimFloat.add (map (fun x => (x - m) * (x - m))%float l) 0 / PrimFloat.of_uint63 (Uint63.of_Z (Z.of_nat (List.length l) - 1)))%float.
Definition near (x y : float) : bool := PrimFloat.ltb (PrimFloat.abs (x - y)) 1e-6%float.
Definition check_stats (r : res (list (list float * dict float))) (n : nat) : bool :=
  match r with
  | Ok rs => (Nat.eqb (List.length rs) n && forallb (fun kd => match dget (snd kd) "b_std", dget (snd kd) "grid_id" with Some v, None => near v 0.0353553 | _, _ => false end) rs
              && forallb (fun c => forallb (fun kd => match dget (snd kd) c with Some _ => true | None => false end) rs)
                   ["longitude_min"; "longitude_max"; "latitude_min"; "latitude_max"; "depth_min"; "depth_max"; "number_events"; "a"; "b"; "mc"; "number_events_std"; "b_std"; "mc_std"; "a_std"])%bool
  | Err _ => false end.
Example t_stats1 : check_stats (calculate_statistics (g3 1 2)%float mean [("std", std)]) 2 = true.
Proof. vm_compute. reflexivity. Qed.
Example t_stats2 : match concat_grids fsort IsForecastGrid [g3 1 2; g3 2 3]%float with Ok g => check_stats (calculate_statistics g mean [("std", std)]) 4 | _ => false end = true.
Proof. vm_compute. reflexivity. Qed.
