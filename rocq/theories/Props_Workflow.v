(** * C223: from a document to the b-value, in double precision *)
From Coq Require Import ZArith QArith List Bool Reals Lia Lra Psatz Permutation Sorted String.
From Flocq Require Import Core.
From Verif Require Import Base Num XR RList SortLib StateM Dict Binning_model BValue_model BValue_run Spec_BValue BValue_proofs Props_BValue Props_BValue2
  F64 Spec_F64 F64_proofs F64_test F64_select F64_fmd Props_F64 Props_F64b F64_acc F64_est Props_F64c Props_F64d Mc_model.
From Verif Require Import Catalog_model Table_model Spec_Table Spec_Numeric Props_Table Workflow_model.
From Verif Require Utils_model QuakeML_model Numeric_model.
Import ListNotations.
Open Scope R_scope.

(** a sample of decimal magnitudes k * delta; None is missing *)
Definition grid (j : Z) (d : nat) (ms : list (option Z)) : list (option R) := map (option_map (fun k => IZR k * widthR j d)) ms.
Fixpoint present (ms : list (option Z)) : list Z := match ms with [] => [] | Some k :: t => k :: present t | None :: t => present t end.

Section Missing.
  Context (L : libm) (j : Z) (d : nat) (W : usual_width j d).
  Lemma sample_filter ms : filter (fun v => negb (@nisnan xr (F64 L) v)) (sample (grid j d ms)) = mags_at j d (present ms).
  Proof. unfold mags_at. induction ms as [|[k|] ms IH]; [reflexivity| |exact IH]. cbn. f_equal. exact IH. Qed.
  Lemma no_nan ks : filter (fun v => negb (@nisnan xr (F64 L) v)) (mags_at j d ks) = mags_at j d ks.
  Proof. unfold mags_at. induction ks as [|k ks IH]; [reflexivity|]. cbn. f_equal. exact IH. Qed.
  Lemma binning_missing ms delta tol lg : present ms <> [] -> @binning_test xr (F64 L) (sample (grid j d ms)) delta tol lg = @binning_test xr (F64 L) (mags_at j d (present ms)) delta tol lg.
  Proof.
    intros NE. unfold binning_test.
    assert (X : @shift_to_min xr (F64 L) (sample (grid j d ms)) = @shift_to_min xr (F64 L) (mags_at j d (present ms))) by (unfold shift_to_min; rewrite sample_filter, no_nan; reflexivity).
    destruct (sample (grid j d ms)) as [|x l] eqn:E; [destruct ms as [|[|] ?]; [exfalso; apply NE; reflexivity|discriminate|discriminate]|].
    rewrite X. destruct (mags_at j d (present ms)) as [|y m] eqn:F; [destruct (present ms); [contradiction|discriminate]|]. reflexivity.
  Qed.
  Lemma mags_missing ms mc : 
    @f_mags xr (F64 L) (mkargs (sample (grid j d ms)) mc (width j d) None None None) = @f_mags xr (F64 L) (mkargs (mags_at j d (present ms)) mc (width j d) None None None).
  Proof.
    unfold f_mags, keep, thr. cbn [a_mags a_mc a_delta]. rewrite !compress_filter. unfold mags_at.
    induction ms as [|[k|] ms IH]; [reflexivity| |].
    - cbn [grid map option_map sample present filter]. change (map (fun o => match o with Some r => Fin (nearest_double r) | None => NaN end) (map _ ms)) with (sample (grid j d ms)).
      unfold decimal at 1 2. match goal with |- context [@nleb ?A ?B ?x ?y] => destruct (@nleb A B x y) end; [f_equal|]; exact IH.
    - cbn [grid map option_map sample present filter].
      match goal with |- (if @nleb ?A ?B ?x NaN then _ else _) = _ => assert (F : @nleb A B x NaN = false) by (cbn; destruct (fix64 _); reflexivity); rewrite F end. exact IH.
  Qed.
  (** without weights and times, missing magnitudes make no difference *)
  Lemma run_missing srt k ms mc u' : (k = Classic \/ k = Utsu) -> present ms <> [] ->
    @run xr (F64 L) srt k (mkargs (mags_at j d (present ms)) mc (width j d) None None None) = Ok u' ->
    exists u, @run xr (F64 L) srt k (mkargs (sample (grid j d ms)) mc (width j d) None None None) = Ok u /\ u_b u = u_b u' /\ u_mags u = u_mags u'.
  Proof.
    intros Hk NE. rewrite !run_dmc by (intros [X|X]; destruct Hk; congruence). unfold check. cbn [a_mags a_weights a_delta].
    pose proof (binning_missing ms (width j d) (@lit xr (F64 L) 1 15) false NE) as B. 
    destruct (sample (grid j d ms)) as [|x l] eqn:E; [destruct ms as [|[|] ?]; [exfalso; apply NE; reflexivity|discriminate|discriminate]|].
    destruct (mags_at j d (present ms)) as [|y m] eqn:F; [destruct (present ms); [contradiction|discriminate]|]. rewrite B. 
    destruct (@binning_test xr (F64 L) (y :: m) (width j d) (lit 1 15) false) as [[]|]; cbn [rbind]; [|discriminate|discriminate].
    rewrite <- E, <- F, (mags_missing ms mc). unfold f_times. assert (Hp : is_pos k = false) by (destruct Hk as [->| ->]; reflexivity). rewrite Hp. cbn [rbind].
    set (a := mkargs (mags_at j d (present ms)) mc (width j d) None None None). set (a' := mkargs (sample (grid j d ms)) mc (width j d) None None None).
    change (@f_weights xr (F64 L) a) with (@None (list xr)). change (@f_weights xr (F64 L) a') with (@None (list xr)).
    destruct (@f_mags xr (F64 L) a) as [|f fs]; [intros [= <-]; eexists; split; [reflexivity|]; split; reflexivity|].
    destruct Hk as [->| ->]; cbn [run_est]; change (a_mc a') with (a_mc a); change (a_delta a') with (a_delta a);
      [destruct (@mle_estimator _ _ _ _ _ _) as [b|]|destruct (@utsu_estimator _ _ _ _ _ _) as [b|]]; cbn [rbind]; try discriminate; intros H; injection H as <-; eexists; (split; [reflexivity|]); split; reflexivity.
  Qed.
End Missing.

(** ** the column of magnitudes *)
(** what a record says about the magnitude: a decimal on the grid, or nothing that is a number *)
Definition tells (j : Z) (d : nat) (r : Spec_Table.record) (m : option Z) : Prop :=
  match m with
  | Some k => exists s n, says r "magnitude" s /\ spells s n /\ Spec_Numeric.value n = IZR k * widthR j d /\
                (digit_count n <= 17)%nat /\ (mantissa n <= 2 ^ 53)%Z /\ (-22 <= exponent n <= 22)%Z
  | None => silent r "magnitude" \/ exists s, says r "magnitude" s /\ (forall n, ~ spells s n) /\ forall w, In w infinities -> ~ spelled_like s w
  end.
Section Column.
  Context (L : libm) (j : Z) (d : nat) (W : usual_width j d).
  #[local] Instance FW : Num xr := F64 L.
  Lemma dget_frame (t : Table_model.table xr) c : Utils_model.mem c numeric_cols = true ->
    dget (@numeric_frame xr FW t) c = option_map (map number_of) (dget (t_cols t) c).
  Proof.
    intros H. unfold numeric_frame. induction (t_cols t) as [|[c' l] cs IH]; [reflexivity|]. cbn [filter fst].
    destruct (Utils_model.mem c' numeric_cols) eqn:E; cbn [map fst snd dget].
    - destruct (String.eqb c c') eqn:Q; [reflexivity|exact IH].
    - destruct (String.eqb c c') eqn:Q; [|exact IH]. apply String.eqb_eq in Q. subst c'. congruence.
  Qed.
  Lemma dget_in {E} (cs : dict (list E)) c l : dget cs c = Some l -> In (c, l) cs.
  Proof. induction cs as [|[c' l'] cs IH]; cbn; [discriminate|]. destruct (String.eqb_spec c c') as [->|]; [intros [= ->]; left; reflexivity|intros H; right; apply IH; exact H]. Qed.
  Lemma nth_ext_map {A B} (f : A -> B) (l : list A) (m : list B) : List.length l = List.length m -> (forall i x, nth_error l i = Some x -> nth_error m i = Some (f x)) -> map f l = m.
  Proof.
    revert m. induction l as [|x l IH]; intros [|y m] H N; try discriminate; [reflexivity|]. cbn. f_equal.
    - specialize (N 0%nat x eq_refl). cbn in N. congruence.
    - apply IH; [cbn in H; lia|]. intros i z. apply (N (S i)).
  Qed.
  Lemma forall2_nth_r {A B} (P : A -> B -> Prop) l m i b : Forall2 P l m -> nth_error m i = Some b -> exists a, nth_error l i = Some a /\ P a b.
  Proof. intros F. revert i. induction F as [|x y l m H F IH]; intros [|i] E; try discriminate; [injection E as <-; exists x; split; [reflexivity|exact H]|apply IH; exact E]. Qed.
  Lemma present_in ms k : In k (present ms) <-> In (Some k) ms.
  Proof.
    induction ms as [|[x|] ms IH]; cbn; [tauto| |]; rewrite IH; split.
    - intros [->|H]; auto.
    - intros [[= ->]|H]; auto.
    - auto.
    - intros [H|H]; [discriminate|exact H].
  Qed.

  Lemma magnitudes_of k rs iu ii k' (t : Table_model.table xr) ms : table_from_dict k rs iu ii = Ok (k', t) -> Forall2 (tells j d) rs ms -> present ms <> [] ->
    (forall i, In i (present ms) -> below8 j d i) -> dget (c_cols (catalog_of t)) "magnitude" = Some (sample (grid j d ms)).
  Proof.
    intros H F NE B. cbn [catalog_of c_cols]. rewrite dget_frame by reflexivity.
    assert (M : exists r0 : Spec_Table.record, In r0 rs /\ In "magnitude"%string (map fst r0)).
    { destruct (present ms) as [|k0 l] eqn:E; [contradiction|]. assert (I : In (Some k0) ms) by (apply present_in; rewrite E; left; reflexivity).
      apply In_nth_error in I. destruct I as (i & I). destruct (forall2_nth_r _ _ _ _ _ F I) as (r & R1 & R2). cbn [tells] in R2. destruct R2 as (s & n & Sy & _).
      exists r. split; [exact (nth_error_In _ _ R1)|exact (says_In _ _ _ Sy)]. }
    assert (Hd : exists l, dget (t_cols t) "magnitude" = Some l).
    { destruct (present ms) as [|k0 l] eqn:E; [contradiction|]. assert (I : In (Some k0) ms) by (apply present_in; rewrite E; left; reflexivity).
      apply In_nth_error in I. destruct I as (i & I). destruct (forall2_nth_r _ _ _ _ _ F I) as (r & R1 & R2). cbn [tells] in R2. destruct R2 as (s & n & Sy & Sp & V & D & Mn & X).
      destruct (C208_numbers L k rs iu ii k' t "magnitude" i r s n H ltac:(left; reflexivity) R1 Sy Sp D Mn X) as [(l' & L1 & _)|(z & (l' & L1 & _) & _)]; eauto. }
    destruct Hd as (l & Hl). rewrite Hl. cbn [option_map]. f_equal.
    destruct (C207_rows_and_columns k rs iu ii k' t H) as (_ & FL & _). { destruct M as (r & R1 & R2). exists r. split; [exact R1|]. intros ->. exact R2. }
    assert (Ln : List.length l = List.length rs) by (rewrite Forall_forall in FL; exact (FL _ (dget_in _ _ _ Hl))).
    assert (Lm : List.length rs = List.length ms) by (clear -F; induction F; cbn; congruence).
    unfold sample, grid. rewrite map_map.
    symmetry. assert (G : forall (m : list xr), List.length m = List.length ms -> (forall i o, nth_error ms i = Some o -> nth_error m i = Some (match option_map (fun k => IZR k * widthR j d) o with Some r => Fin (nearest_double r) | None => NaN end)) ->
      map (fun o => match option_map (fun k => IZR k * widthR j d) o with Some r => Fin (nearest_double r) | None => NaN end) ms = m) by (intros m A1 A2; apply nth_ext_map; [symmetry; exact A1|exact A2]).
    apply G; [rewrite map_length; congruence|]. clear G. intros i o Ho. rewrite nth_error_map.
    destruct (forall2_nth_r _ _ _ _ _ F Ho) as (r & R1 & R2).
    destruct o as [k0|]; cbn [tells option_map] in *.
    - destruct R2 as (s & n & Sy & Sp & V & D & Mn & X).
      destruct (C208_numbers L k rs iu ii k' t "magnitude" i r s n H ltac:(left; reflexivity) R1 Sy Sp D Mn X) as [(l' & L1 & L2)|(z & (l' & L1 & L2) & Z1)]; rewrite Hl in L1; injection L1 as <-; rewrite L2; cbn [option_map number_of].
      + rewrite V. reflexivity.
      + rewrite V in Z1. specialize (B k0 ltac:(apply present_in; exact (nth_error_In _ _ Ho))). unfold below8 in B. rewrite <- Z1 in B.
        assert (Bz : (Z.abs z <= 2 ^ 53)%Z). { apply le_IZR. rewrite abs_IZR. apply Rle_trans with 8; [left; exact B|]. change (2 ^ 53)%Z with 9007199254740992%Z. lra. }
        pose proof (f_ofZ L z Bz) as Q. change (@ofZ xr FW z = Fin (IZR z)) in Q. rewrite Q, <- Z1. unfold nearest_double. do 2 f_equal. symmetry. apply (rnd_int z). exact Bz.
    - destruct (C208_no_numbers L k rs iu ii k' t "magnitude" i r H ltac:(left; reflexivity) R1) as (l' & L1 & L2); [destruct M as (r0 & M1 & M2); exists r0; split; [exact M1|exact M2]|exact R2|].
      rewrite Hl in L1. injection L1 as <-. rewrite L2. reflexivity.
  Qed.
End Column.

(** ** C223: the theorems *)
Section Estimate.
  Context (L : libm) (j : Z) (d : nat) (W : usual_width j d).
  Lemma estimate_from srt w k (c : @catalog xr) mags mc m0 delta (r : xr) : k = Classic \/ k = Utsu -> dget (c_cols c) "magnitude" = Some mags -> dget (c_cols c) "weight" = None ->
    (m0 = Some mc \/ m0 = None /\ c_mc c = Some mc) ->
    (exists o', @calculate xr (F64 L) srt k w (mkargs mags mc delta None None None) new_obj = (o', Ok r) /\ o_b o' = Some r) ->
    exists c' o', @cat_estimate_b xr (F64 L) srt w m0 (Some delta) None k (mkkwb None None) c = (c', Ok o') /\ c_b c' = Some r /\ c_mc c' = c_mc c /\ c_cols c' = c_cols c /\
      @calculate xr (F64 L) srt k w (mkargs mags mc delta None None None) new_obj = (o', Ok r).
  Proof.
    intros Hk Hm Hw H0 (o' & E & Eb). exists (set_b c (Some r)), o'. unfold cat_estimate_b, with_magnitude. rewrite Hm.
    assert (G : given_b (mkkwb None None : @kwargs_b xr) = false) by reflexivity.
    assert (Q : check_catalog_cols (b_args k) b_base_args (c_cols c) = []) by (destruct Hk as [->| ->]; reflexivity).
    rewrite Q, Hw. destruct H0 as [->|[-> H0]]; [|rewrite H0]; destruct Hk as [->| ->]; cbn [kw_dmc kw_times given_b dget]; rewrite E; unfold b_value; rewrite Eb; split; auto.
  Qed.
  Lemma no_weight t : dget (c_cols (@catalog_of xr (F64 L) t)) "weight" = None.
  Proof.
    cbn [catalog_of c_cols]. unfold numeric_frame. induction (t_cols t) as [|[c l] cs IH]; [reflexivity|]. cbn [filter fst].
    destruct (Utils_model.mem c numeric_cols) eqn:E; [|exact IH]. cbn [map fst dget]. destruct (String.eqb_spec "weight" c) as [<-|]; [discriminate|exact IH].
  Qed.
  Lemma calc_missing srt k w ms mc o r : (k = Classic \/ k = Utsu) -> present ms <> [] ->
    (exists o', @calculate xr (F64 L) srt k w (mkargs (mags_at j d (present ms)) mc (width j d) None None None) o = (o', Ok r)) ->
    exists o', @calculate xr (F64 L) srt k w (mkargs (sample (grid j d ms)) mc (width j d) None None None) o = (o', Ok r) /\ o_b o' = Some r /\
      forall o'' used, @calculate xr (F64 L) srt k w (mkargs (mags_at j d (present ms)) mc (width j d) None None None) o = (o'', Ok r) -> o_mags o'' = Some used -> o_mags o' = Some used.
  Proof.
    intros Hk NE (o1 & E1). pose proof (@calculate_run xr (F64 L) srt k w (mkargs (mags_at j d (present ms)) mc (width j d) None None None) o) as R.
    destruct (@run xr (F64 L) srt k (mkargs (mags_at j d (present ms)) mc (width j d) None None None)) as [u'|e] eqn:Eu; destruct R as (o2 & E2 & F2); [|congruence].
    rewrite E1 in E2. injection E2 as Eo Er. subst o2 r.
    destruct (run_missing L j d srt k ms mc u' Hk NE Eu) as (u & R & Rb & Rm).
    pose proof (@calculate_run xr (F64 L) srt k w (mkargs (sample (grid j d ms)) mc (width j d) None None None) o) as Q. rewrite R in Q. destruct Q as (o' & E' & F').
    exists o'. rewrite <- Rb. split; [exact E'|]. destruct F' as (M1 & _ & _ & _ & _ & B1 & _). split; [exact B1|].
    intros o'' used E'' Hm. rewrite Rb, E1 in E''. injection E'' as <-. destruct F2 as (M2 & _). rewrite M1, Rm, <- M2. exact Hm.
  Qed.
  Theorem C223_missing_magnitudes srt k w ms kc o : sums_in_some_order L -> log_accurate L -> (forall i, In i (present ms) -> below8 j d i) -> moderate j d kc ->
    let delta := widthR j d in let used := filter (Z.leb kc) (present ms) in (Z.of_nat (List.length used) <= 2 ^ 40)%Z ->
    k = Classic /\ (exists i, In i (present ms) /\ (kc < i)%Z) \/ k = Utsu /\ used <> [] ->
    exists o' b, @calculate xr (F64 L) srt k w (mkargs (sample (grid j d ms)) (Fin (decimal j d kc)) (width j d) None None None) o = (o', Ok (Fin b)) /\ o_b o' = Some (Fin b) /\
      accurate delta (List.length used) b ((match k with Utsu => exact_utsu | _ => exact_classic end) delta (mean_excess delta kc used)).
  Proof.
    intros SO LA B C delta used Hn Hk.
    destruct (C176_classic_and_utsu L srt k w j d (present ms) kc o SO LA W B C Hn Hk) as (o1 & b & E & A).
    assert (NE : present ms <> []). { intros X. unfold used in Hk. rewrite X in Hk. destruct Hk as [[_ (i & [] & _)]|[_ Hk]]. apply Hk. reflexivity. }
    destruct (calc_missing srt k w ms (Fin (decimal j d kc)) o (Fin b) ltac:(destruct Hk as [[-> _]|[-> _]]; auto) NE ltac:(eexists; exact E)) as (o' & E' & B' & _).
    exists o', b. auto.
  Qed.
  (** the b-value of the catalogue made of records *)
  Theorem C223_records srt k w rs ms kc K iu ii K' (t : Table_model.table xr) : sums_in_some_order L -> log_accurate L ->
    @table_from_dict xr (F64 L) K rs iu ii = Ok (K', t) -> Forall2 (tells j d) rs ms -> (forall i, In i (present ms) -> below8 j d i) -> moderate j d kc ->
    let delta := widthR j d in let used := filter (Z.leb kc) (present ms) in (Z.of_nat (List.length used) <= 2 ^ 40)%Z ->
    k = Classic /\ (exists i, In i (present ms) /\ (kc < i)%Z) \/ k = Utsu /\ used <> [] ->
    exists c' o' b, @cat_estimate_b xr (F64 L) srt w (Some (Fin (decimal j d kc))) (Some (width j d)) None k (mkkwb None None) (@catalog_of xr (F64 L) t) = (c', Ok o') /\ c_b c' = Some (Fin b) /\
      accurate delta (List.length used) b ((match k with Utsu => exact_utsu | _ => exact_classic end) delta (mean_excess delta kc used)).
  Proof.
    intros SO LA H F B C delta used Hn Hk.
    assert (NE : present ms <> []). { intros X. unfold used in Hk. rewrite X in Hk. destruct Hk as [[_ (i & [] & _)]|[_ Hk]]. apply Hk. reflexivity. }
    pose proof (magnitudes_of L j d K rs iu ii K' t ms H F NE B) as M.
    destruct (C223_missing_magnitudes srt k w ms kc new_obj SO LA B C Hn Hk) as (o1 & b & E & Eb & A).
    destruct (estimate_from srt w k (@catalog_of xr (F64 L) t) _ (Fin (decimal j d kc)) (Some (Fin (decimal j d kc))) (width j d) (Fin b) ltac:(destruct Hk as [[-> _]|[-> _]]; auto) M (no_weight t) (or_introl eq_refl)) as (c' & o' & G1 & G2 & _); [eauto|].
    exists c', o', b. auto.
  Qed.
  (** first the completeness magnitude by maximum curvature, then the b-value above it *)
  Theorem C223_maxc_then_b srt k w rs ms kcor K iu ii K' (t : Table_model.table xr) : sums_in_some_order L -> k = Classic \/ k = Utsu ->
    @table_from_dict xr (F64 L) K rs iu ii = Ok (K', t) -> Forall2 (tells j d) rs ms -> present ms <> [] -> (forall i, In i (present ms) -> below8 j d i) ->
    (Z.of_nat (List.length (present ms)) <= 2 ^ 53)%Z -> Rabs (IZR kcor * widthR j d) <= 10 ->
    exists km mc c1 c2 o b idx used, fullest km (present ms) /\
      @cat_mc_maxc xr (F64 L) (width j d) (Fin (decimal j d kcor)) (@catalog_of xr (F64 L) t) = (c1, Ok mc) /\ c_mc c1 = Some mc /\
      @cat_estimate_b xr (F64 L) srt w None (Some (width j d)) None k (mkkwb None None) c1 = (c2, Ok o) /\ c_b c2 = Some b /\ c_mc c2 = Some mc /\
      o_mags o = Some (mags_at j d used) /\ picks (fun i => (km + kcor <= i)%Z) (present ms) idx used.
  Proof.
    intros SO Hk H F NE B Hn Hc. pose proof (magnitudes_of L j d K rs iu ii K' t ms H F NE B) as M. change (FW L) with (F64 L) in M.
    assert (Mc : moderate j d kcor) by (unfold moderate; lra). pose proof (dec_near j d kcor Mc) as Nc. apply Rabs_le_inv in Nc, Hc.
    set (rs' := map (option_map (decimal j d)) ms).
    assert (Kn : known rs' = map (decimal j d) (present ms)). { unfold rs'. clear. induction ms as [|[k|] ms IH]; cbn; congruence. }
    assert (Sm : sample (grid j d ms) = column rs'). { unfold sample, grid, column, rs'. rewrite !map_map. apply map_ext. intros [k0|]; reflexivity. }
    destruct (C180_maxc L j d rs' (decimal j d kcor) SO W) as (Ks & km & Fk & Fu & E).
    - rewrite Kn. destruct (present ms); [congruence|discriminate].
    - rewrite Kn. intros x Hx. apply in_map_iff in Hx as (q & <- & Hq). specialize (B q Hq). unfold below8 in B.
      pose proof (dec_near j d q (below8_ok j d q B)) as N. apply Rabs_le_inv in N. apply Rabs_def2 in B. apply Rabs_le. lra.
    - rewrite Kn, map_length. exact Hn.
    - apply Rabs_le. lra.
    - rewrite Kn in Fk. apply near_unique in Fk; [|exact W|intros; apply below8_ok, B; assumption]. subst Ks.
      assert (Bm : below8 j d km) by (apply B, Fu).
      assert (Ms : moderate j d (km + kcor)) by (unfold moderate, below8 in *; rewrite plus_IZR; apply Rabs_def2 in Bm; apply Rabs_le; lra).
      set (mc := nearest_double (decimal j d km + decimal j d kcor)) in *.
      destruct (C180_complete_events L srt k w j d (present ms) (km + kcor) mc new_obj W Hk B Ms (maxc_about j d km kcor W (below8_ok j d km Bm) Mc)) as (o1 & b & idx & used & E1 & _ & Em & P).
      destruct (calc_missing srt k w ms (Fin mc) new_obj b Hk NE ltac:(eexists; exact E1)) as (o' & E' & B' & Hu).
      set (c1 := set_mc (@catalog_of xr (F64 L) t) (Some (Fin mc))).
      destruct (estimate_from srt w k c1 (sample (grid j d ms)) (Fin mc) None (width j d) b Hk M (no_weight t) (or_intror (conj eq_refl eq_refl))) as (c2 & o2 & G1 & G2 & G3 & G4 & G5); [eauto|].
      exists km, (Fin mc), c1, c2, o2, b, idx, used. split; [exact Fu|]. split; [|split; [reflexivity|split; [exact G1|split; [exact G2|split; [exact G3|split; [|exact P]]]]]].
      + unfold cat_mc_maxc, with_magnitude. rewrite M, Sm, E. reflexivity.
      + rewrite E' in G5. injection G5 as <-. exact (Hu _ _ E1 Em).
  Qed.
End Estimate.
Print Assumptions C223_missing_magnitudes.
Print Assumptions C223_records.
Print Assumptions C223_maxc_then_b.
