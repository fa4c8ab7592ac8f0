(** * Rate grids: concrete cases; refuted claims C145, C147 *)
From Coq Require Import Reals List Bool String Sorted Permutation Lia Lra ZArith.
From Verif Require Import Base Num XR Dict SortLib Utils_model Spec_Catalog Props_Catalog Rategrid_model Spec_Rategrid Rategrid_proofs Props_Rategrid Props_Rategrid2 Props_Rategrid3.
Import ListNotations.
Open Scope list_scope.

(** ** there is a sort of rows *)
Definition beforeb (x y : xr) : bool := if nisnan x then false else if nisnan y then true else nltb x y.
Definition equalb (x y : xr) : bool := (nisnan x && nisnan y) || neqb x y.
Fixpoint row_leb (r s : list xr) : bool :=
  match r, s with
  | [], [] => true
  | x :: r', y :: s' => beforeb x y || (equalb x y && row_leb r' s')
  | _, _ => false
  end.
Lemma beforeb_spec x y : beforeb x y = true <-> before x y.
Proof.
  unfold beforeb. destruct (nisnan x) eqn:Ex.
  - destruct x; try discriminate Ex. cbn. split; [discriminate | tauto].
  - assert (Hx : x <> NaN) by (intros ->; discriminate Ex). destruct (nisnan y) eqn:Ey.
    + destruct y; try discriminate Ey. destruct x; cbn; split; auto; congruence.
    + apply xltb_before; [exact Hx | intros ->; discriminate Ey].
Qed.
Lemma equalb_spec x y : equalb x y = true <-> x = y.
Proof.
  unfold equalb. rewrite orb_true_iff, xeqb_spec, andb_true_iff. destruct x as [a| | |], y as [b| | |]; cbn; intuition congruence.
Qed.
Lemma row_leb_spec r s : length r = length s -> (row_leb r s = true <-> row_before r s \/ r = s).
Proof.
  revert s. induction r as [|x r IH]; intros [|y s] Hl; try discriminate Hl; cbn [row_leb row_before]; [intuition|].
  rewrite orb_true_iff, andb_true_iff, beforeb_spec, equalb_spec, IH by (cbn in Hl; lia). split.
  - intros [H|[-> [H| ->]]]; auto.
  - intros [[H|[-> H]]|E]; auto. injection E as -> ->. auto.
Qed.
Lemma before_total' x y : before x y \/ x = y \/ before y x.
Proof. destruct x as [a| | |], y as [b| | |]; cbn; auto. destruct (Rtotal_order a b) as [H|[H|H]]; auto. subst. auto. Qed.
Lemma row_total' (r s : list xr) : length r = length s -> row_before r s \/ r = s \/ row_before s r.
Proof.
  revert s. induction r as [|x r IH]; intros [|y s] Hl; try discriminate Hl; cbn [row_before]; [auto|].
  destruct (before_total' x y) as [H|[H|H]]; auto. subst y. destruct (IH s ltac:(cbn in Hl; lia)) as [H|[->|H]]; auto.
Qed.
Definition sort_rows (rows : list (list xr)) : list nat := isort (fun i j => row_leb (nth i rows []) (nth j rows [])) (seq 0 (length rows)).
Lemma sort_rows_sorts : sorts_rows sort_rows.
Proof.
  intros rows Hlen. split; [apply Permutation_sym, isort_perm|].
  assert (Hl : forall i j, (i < length rows)%nat -> (j < length rows)%nat -> length (nth i rows []) = length (nth j rows [])) by (intros i j Hi Hj; apply Hlen; apply nth_In; assumption).
  apply (StronglySorted_impl_in (leP (fun i j => row_leb (nth i rows []) (nth j rows [])))).
  - intros i j Hi Hj H r s Hr Hs. unfold leP in H.
    assert (Li := nth_lt _ _ _ Hr). assert (Lj := nth_lt _ _ _ Hs).
    rewrite (nth_error_nth _ _ _ Hr), (nth_error_nth _ _ _ Hs) in H. apply row_leb_spec in H; [exact H|]. apply Hlen; eapply nth_error_In; eassumption.
  - apply isort_sorted_in.
    + intros a b Ha Hb. apply in_seq in Ha, Hb. rewrite !row_leb_spec by (apply Hl; lia).
      destruct (row_total' (nth a rows []) (nth b rows [])) as [H|[H|H]]; [apply Hl; lia | auto | auto | auto].
    + intros a b c Ha Hb Hc. apply in_seq in Ha, Hb, Hc. rewrite !row_leb_spec by (apply Hl; lia).
      intros [H1| ->] [H2|H2]; auto; [left; eapply row_before_trans; eauto | left; rewrite <- H2; exact H1].
Qed.

(** ** a concrete grid *)
Definition row_at (lo a : R) : dict xr :=
  [("longitude_min", Fin lo); ("longitude_max", Fin (lo + 1)); ("latitude_min", Fin 45); ("latitude_max", Fin 46);
   ("depth_min", Fin 1); ("depth_max", Fin 2); ("a", Fin a); ("b", Fin 1); ("mc", Fin 1); ("grid_id", Fin a)]%string.
Definition all_columns : list string := (required_columns ++ ["grid_id"%string])%list.
Definition two_rows : table xr := mktab ["starttime"; "cell_id"]%string [[Fin 0; NaN]; [Fin 0; NaN]] required_columns [row_at 9 0; row_at 10 1].
Definition plain_grid (t0 t1 : R) (los : list R) : grid xr :=
  mkgrid IsGrid (mktab ["index"%string] (map (fun lo => [Fin lo]) los) required_columns (map (fun lo => row_at lo 0) los)) None (Some (Fin t0)) (Some (Fin t1)) None.
Lemma two_rows_ok : well_indexed two_rows.
Proof. split; [repeat constructor; cbn; intuition discriminate|]. split; [reflexivity | repeat constructor]. Qed.
Lemma row_complete lo a : complete_row (cell_bounds (row_at lo a)).
Proof. unfold complete_row. cbn. intuition discriminate. Qed.
Lemma rows_in_order lo hi a b : lo < hi -> row_before (cell_bounds (row_at lo a)) (cell_bounds (row_at hi b)).
Proof. intros H. cbn [cell_bounds map row_before row_at]. left. cbn. exact H. Qed.
Example plain_grid_ok t0 t1 los : rate_grid (plain_grid t0 t1 los) /\ index_levels (plain_grid t0 t1 los) = 1%nat /\ g_start (plain_grid t0 t1 los) <> None /\ g_end (plain_grid t0 t1 los) <> None.
Proof.
  split; [|split; [reflexivity | split; discriminate]]. split; [discriminate|]. split; [apply incl_refl|]. split; [repeat constructor; intros []|]. split.
  - cbn. rewrite !map_length. reflexivity.
  - cbn. apply Forall_forall. intros ix H. apply in_map_iff in H. destruct H as (x & <- & _). reflexivity.
Qed.
(** C144 on two grids that share the cell at 10: four rows, cells 0 1 1 2 *)
Example concat_two : exists r ids, concat_grids sort_rows IsGrid [plain_grid 0 1 [9; 10]; plain_grid 1 2 [10; 11]] = Ok r /\
  length (t_rows (g_tab r)) = 4%nat /\ level_of (g_tab r) "cell_id" (map id_of ids) /\ nth_error ids 1 = nth_error ids 2 /\ level_of (g_tab r) "starttime" [Fin 0; Fin 0; Fin 1; Fin 1].
Proof.
  destruct (C144_concat sort_rows sort_rows_sorts IsGrid [plain_grid 0 1 [9; 10]; plain_grid 1 2 [10; 11]]) as (r & ids & H0 & _ & _ & H1 & H2 & H3 & H4 & _).
  - discriminate.
  - apply Forall_cons; [|apply Forall_cons; [|apply Forall_nil]]; destruct (plain_grid_ok 0 1 [9; 10]) as (A & B & C & _), (plain_grid_ok 1 2 [10; 11]) as (A' & B' & C' & _); auto.
  - exists r, ids. split; [exact H0|]. split; [rewrite H1; reflexivity|]. split; [exact H2|]. split; [|exact H4].
    destruct H3 as (Hl & Hs & _). assert (Hlen : length ids = 4%nat) by (rewrite Hl; reflexivity).
    destruct (nth_some ids 1) as [a Ha]; [lia|]. destruct (nth_some ids 2) as [b Hb]; [lia|]. rewrite Ha, Hb. f_equal.
    apply (proj2 (proj1 (Hs 1%nat 2%nat _ _ a b eq_refl eq_refl Ha Hb))). right. split; [reflexivity | apply row_complete].
Qed.

(** ** C145 *)
Theorem C145_stable_numbers_refuted srt : sorts_rows srt -> exists g g',
  new_grid srt IsGrid two_rows None None None None = Ok g /\ level_of (g_tab g) "cell_id" [Fin 0; Fin 1] /\
  grid_operation srt g (mktab (t_names (g_tab g)) (tl (t_index (g_tab g))) (t_columns (g_tab g)) (tl (t_rows (g_tab g)))) = Ok g' /\
  level_of (g_tab g') "cell_id" [Fin 0].
Proof.
  intros Hs. assert (Hc : In "cell_id"%string (t_names two_rows)) by (right; left; reflexivity).
  destruct (new_grid_spec srt Hs IsGrid two_rows None None None None two_rows_ok (incl_refl _) Hc ltac:(cbn; lia)) as (g & Hg & (R1 & R2 & R3 & R4 & R5 & (ids & R6 & Hl & Hn & Hcs) & R7) & _ & K & _).
  exists g. assert (E : map id_of ids = [Fin 0; Fin 1]).
  { destruct ids as [|a [|b [|c ids]]]; try discriminate Hl. assert (Hab : (a < b)%nat) by (apply (Hn 0 1 (row_at 9 0) (row_at 10 1) a b)%nat; try reflexivity; apply rows_in_order; lra).
    assert (Ha : a = 0%nat). { destruct a as [|a]; [reflexivity|]. destruct (Hcs (S a) 0%nat) as [H|[H|[]]]; [left; reflexivity | lia | lia | lia]. } subst a.
    assert (Hb : b = 1%nat). { destruct b as [|[|b]]; [lia | reflexivity|]. destruct (Hcs (S (S b)) 1%nat) as [H|[H|[]]]; [right; left; reflexivity | lia | lia | lia]. } subst b. reflexivity. }
  rewrite E in R6. set (t := mktab _ _ _ _).
  assert (Hnames : t_names (g_tab g) = ["starttime"; "cell_id"]%string) by (rewrite (R7 ["starttime"%string] eq_refl); reflexivity).
  destruct R3 as (A1 & A2 & A3).
  destruct (C145_selection_renumbers srt Hs g t (cell_bounds (row_at 10 1))) as (g' & G1 & _ & G2).
  - rewrite K. discriminate.
  - split; [exact A1|]. split.
    + cbn [t t_index t_rows]. rewrite R1 in *. destruct (t_index (g_tab g)) as [|? [|? [|]]]; try discriminate A2. reflexivity.
    + cbn [t t_index t_names]. destruct (t_index (g_tab g)); [constructor | inversion A3; assumption].
  - cbn [t t_columns]. rewrite R2. apply incl_refl.
  - cbn [t t_names]. rewrite Hnames. right. left. reflexivity.
  - cbn [t t_names]. rewrite Hnames. cbn. lia.
  - apply row_complete.
  - cbn [t t_rows]. rewrite R1. intros row [<-|[]]. reflexivity.
  - exists g'. split; [exact Hg|]. split; [exact R6|]. split; [exact G1|]. cbn [t t_rows] in G2. rewrite R1 in G2. exact G2.
Qed.

(** ** C147 with a sum *)
Definition forecast : grid xr := mkgrid IsForecastGrid (mktab ["index"%string] [[Fin 0]; [Fin 1]] all_columns [row_at 9 0; row_at 9 1]) None None None (Some 2%nat).
Lemma forecast_known c : In c all_columns -> known_column forecast c.
Proof.
  intros H. split; [exact H|]. exists (row_at 9 0). split; [left; reflexivity|]. unfold all_columns, required_columns in H. cbn [app In] in H.
  repeat (destruct H as [<-|H]); try contradiction; cbn; discriminate.
Qed.
Definition sum_of (l : list xr) : xr := fold_right (fun x y => nadd x y) (Fin 0) l.
Theorem C147_bounds_refuted : exists g agg rs k d, calculate_statistics g agg [] = Ok rs /\ rs = [(k, d)] /\
  (forall row, In row (t_rows (g_tab g)) -> value "longitude_min" row = Fin 9) /\ dget d "longitude_min" = Some (Fin 18).
Proof.
  assert (Hn : NoDup all_columns) by (unfold all_columns, required_columns; cbn [app]; repeat (constructor; [cbn; intuition discriminate|]); constructor).
  assert (Hb : forall c, In c bound_columns -> known_column forecast c) by (intros c Hc; apply forecast_known; unfold bound_columns in Hc; cbn [In] in Hc; unfold all_columns, required_columns; cbn [app In]; tauto).
  destruct (C146_statistics_by_cell forecast sum_of [] Hn (NoDup_nil _) eq_refl Hb) as (rs & Hr & G1 & G2 & G3).
  set (k := cell_bounds (row_at 9 0)) in *. assert (Hk : In k (map fst rs)) by (apply G2; split; [left; reflexivity | apply row_complete]).
  assert (Hall : forall x, In x (map fst rs) -> x = k) by (intros x Hx; apply G2 in Hx; destruct Hx as [[<-|[<-|[]]] _]; reflexivity).
  destruct rs as [|[k1 d] [|[k2 d2] rs]].
  - contradiction.
  - assert (k1 = k) by (apply Hall; left; reflexivity). subst k1.
    exists forecast, sum_of, [(k, d)], k, d. split; [exact Hr|]. split; [reflexivity|]. split; [intros row [<-|[<-|[]]]; reflexivity|].
    destruct (G3 k d (or_introl eq_refl)) as (sel & Hsel & S1 & _). rewrite (S1 "longitude_min"%string (Hb _ (or_introl eq_refl))) by discriminate.
    assert (Es : sel = [(k, row_at 9 0); (k, row_at 9 1)]).
    { cbn [map combine t_rows g_tab forecast] in Hsel. inversion Hsel as [|? ? l1 P1 T1|? ? l1 P1 T1]; subst; [|elim P1; reflexivity].
      inversion T1 as [|? ? l2 P2 T2|? ? l2 P2 T2]; subst; [|elim P2; reflexivity]. inversion T2; subst. reflexivity. }
    rewrite Es. cbn. f_equal. f_equal. lra.
  - assert (k1 = k) by (apply Hall; left; reflexivity). assert (k2 = k) by (apply Hall; right; left; reflexivity). subst.
    cbn [map fst] in G1. inversion G1 as [|? ? _ Hf]; subst. inversion Hf as [|? ? Hf1 _]; subst. elim (row_before_irr _ Hf1).
Qed.

(** hypotheses of C143 and C148: a grid whose depths are unknown *)
Definition no_depth (lo : R) : dict xr := [("longitude_min", Fin lo); ("longitude_max", Fin (lo + 1)); ("latitude_min", Fin 45); ("latitude_max", Fin 46); ("a", Fin 0); ("b", Fin 1); ("mc", Fin 1)]%string.
Example no_depth_incomplete lo : ~ complete_row (cell_bounds (no_depth lo)).
Proof. intros H. apply H. cbn. tauto. Qed.
Example same_cell_two_numbers : exists g ids, new_grid sort_rows IsGrid (mktab ["starttime"; "cell_id"]%string [[Fin 0; NaN]; [Fin 1; NaN]] required_columns [no_depth 9; no_depth 9]) None None None None = Ok g /\
  level_of (g_tab g) "cell_id" (map id_of ids) /\ NoDup ids /\ length ids = 2%nat.
Proof.
  apply (C143_unknown_bounds_refuted sort_rows IsGrid (mktab ["starttime"; "cell_id"]%string [[Fin 0; NaN]; [Fin 1; NaN]] required_columns [no_depth 9; no_depth 9])).
  - apply sort_rows_sorts.
  - split; [repeat constructor; cbn; intuition discriminate|]. split; [reflexivity | repeat constructor].
  - apply incl_refl.
  - right. left. reflexivity.
  - cbn. lia.
  - intros r [<-|[<-|[]]]; apply no_depth_incomplete.
Qed.
Example no_depth_statistics agg stats : calculate_statistics (mkgrid IsForecastGrid (mktab ["index"%string] [[Fin 0]] all_columns [no_depth 9]) None None None None) agg stats = Err KeyError.
Proof. apply (C148_unknown_bound_refuted _ agg stats "depth_min"%string); [reflexivity | cbn; tauto | intros row [<-|[]]; reflexivity]. Qed.

(** ** C149: class and attributes of results *)
Lemma new_grid_cls srt k t name s e n g : new_grid srt k t name s e n = Ok g -> g_cls g = k /\ g_name g = name /\ g_n g = n.
Proof.
  unfold new_grid. destruct (1 <? nlevels t)%nat; [|intros H; injection H as <-; auto]. unfold reindex_cell_id. cbn [g_tab g_cls g_name g_n g_start g_end].
  destruct (negb _); [intros H; injection H as <-; auto|].
  assert (G : forall t' g, (if mem "starttime" (t_names t') then Ok (mkgrid k t' name (level_min (level_values t' "starttime")) (if mem "endtime" (t_names t') then level_max (level_values t' "endtime") else level_max (level_values t' "starttime")) n) else Ok (mkgrid k t' name s e n)) = Ok g -> g_cls g = k /\ g_name g = name /\ g_n g = n).
  { intros t' g0. destruct (mem "starttime" _); intros H; injection H as <-; auto. }
  destruct (level_pos "cell_id" (t_names t)) as [i|]; [destruct (unique_inverse _ _ _) as [ids|x] eqn:Eu|]; cbn [rbind].
  - set (t' := mktab _ _ _ _). specialize (G t' g). destruct (mem "starttime" (t_names t')); intros H; apply G; exact H.
  - destruct x; try discriminate; intros H; injection H as <-; auto.
  - specialize (G t g). destruct (mem "starttime" (t_names t)); intros H; apply G; exact H.
Qed.
Theorem C149_class_and_attributes srt g t g' : g_cls g <> PlainGrid -> grid_operation srt g t = Ok g' ->
  (g_cls g' <> PlainGrid <-> incl required_columns (t_columns t)) /\
  (g_cls g' = IsForecastGrid <-> incl required_columns (t_columns t) /\ In "grid_id"%string (t_columns t)) /\
  (g_cls g' <> PlainGrid -> g_name g' = g_name g /\ g_start g' = g_start g /\ g_end g' = g_end g) /\
  (g_cls g = IsForecastGrid -> g_cls g' = IsForecastGrid -> g_n g' = g_n g).
Proof.
  intros Hg H. unfold grid_operation, construct_grid in H.
  assert (Hc : grid_class (t_columns t) <> PlainGrid <-> incl required_columns (t_columns t)).
  { unfold grid_class. rewrite <- has_columns. destruct (check_required_cols (t_columns t) grid_columns); cbn [negb]; [|split; congruence].
    destruct (check_required_cols (t_columns t) ["grid_id"%string]); cbn [negb]; split; auto; discriminate. }
  assert (Hf : grid_class (t_columns t) = IsForecastGrid <-> incl required_columns (t_columns t) /\ In "grid_id"%string (t_columns t)).
  { unfold grid_class. rewrite <- has_columns. rewrite <- mem_In. unfold check_required_cols at 2. cbn [forallb]. rewrite andb_true_r.
    destruct (check_required_cols (t_columns t) grid_columns); cbn [negb]; [|split; [discriminate | intros [? _]; discriminate]].
    destruct (mem "grid_id" (t_columns t)); cbn [negb]; split; auto; [discriminate | intros [_ ?]; discriminate]. }
  assert (Hk : g_cls g' = grid_class (t_columns t) /\ (g_cls g' <> PlainGrid -> g_name g' = g_name g /\ g_start g' = g_start g /\ g_end g' = g_end g) /\ (g_cls g = IsForecastGrid -> g_cls g' = IsForecastGrid -> g_n g' = g_n g)).
  { destruct (grid_class (t_columns t)) eqn:Ek.
    - cbn [rbind] in H. destruct (g_cls g); [congruence| |]; injection H as <-; unfold finalize_grid; cbn [g_cls]; repeat split; congruence.
    - destruct (new_grid srt IsGrid t None None None None) as [r|x] eqn:Er; cbn [rbind] in H; [|destruct (g_cls g); [congruence| |]; discriminate H]. apply new_grid_cls in Er. destruct Er as (E1 & E2 & E3).
      destruct (g_cls g) eqn:Eg; [congruence| |]; injection H as <-; unfold finalize_grid; rewrite E1, Eg; cbn [g_cls g_name g_start g_end g_n]; repeat split; congruence.
    - destruct (new_grid srt IsForecastGrid t None None None None) as [r|x] eqn:Er; cbn [rbind] in H; [|destruct (g_cls g); [congruence| |]; discriminate H]. apply new_grid_cls in Er. destruct Er as (E1 & E2 & E3).
      destruct (g_cls g) eqn:Eg; [congruence| |]; injection H as <-; unfold finalize_grid; rewrite E1, Eg; cbn [g_cls g_name g_start g_end g_n]; repeat split; congruence. }
  destruct Hk as (K1 & K2 & K3). rewrite K1 in *. split; [exact Hc|]. split; [exact Hf|]. split; [exact K2 | exact K3].
Qed.

Print Assumptions C149_class_and_attributes.
Print Assumptions C61_cell_ids.
Print Assumptions C61_same_cell.
Print Assumptions C143_unknown_bounds_refuted.
Print Assumptions C144_add_time_index.
Print Assumptions C144_add_time_index_errors.
Print Assumptions C144_concat.
Print Assumptions C144_concat_indexed.
Print Assumptions C144_concat_errors.
Print Assumptions C145_selection_renumbers.
Print Assumptions C145_stable_numbers_refuted.
Print Assumptions C146_statistics_by_cell.
Print Assumptions C146_statistics_by_level.
Print Assumptions C147_bounds_of_summary.
Print Assumptions C147_bounds_kept.
Print Assumptions C147_bounds_refuted.
Print Assumptions C148_unknown_bound_refuted.
