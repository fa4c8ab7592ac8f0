(** * C207-C212: the table of a Catalog made of records (Catalog.from_dict, Catalog.from_quakeml) *)
From Coq Require Import ZArith QArith List Bool String Ascii Lia Reals.
From Verif Require Import Base Num XR F64 Dict Utils_model QuakeML_model Xml_model Catalog_model Spec_Catalog Props_Catalog Table_model Spec_Table Table_proofs.
From Verif Require Import Spec_F64 Spec_Numeric Spec_Times.
From Verif Require Openquake_model.
Notation rnd := Openquake_model.rnd.
From Verif Require Numeric_model Times_model Props_Numeric Props_Times Spec_Openquake.
Import ListNotations.
Open Scope string_scope.

(** ** names *)
Lemma mem_false c l : mem c l = false <-> ~ In c l.
Proof. rewrite <- mem_In. destruct (mem c l); split; congruence. Qed.
Lemma add_names_firsts l : forall seen, add_names seen l = app seen (filter (fun c => negb (mem c seen)) (firsts l)).
Proof.
  induction l as [|x l IH]; cbn [add_names firsts]; intros seen; [cbn; rewrite app_nil_r; reflexivity|]. rewrite IH. cbn [filter]. destruct (mem x seen) eqn:E; cbn [negb].
  - rewrite Table_proofs.filter_filter. f_equal. apply filter_ext. intros c. destruct (String.eqb_spec x c) as [<-|]; cbn [negb andb]; [rewrite E|]; reflexivity.
  - rewrite <- app_assoc. cbn [app]. rewrite Table_proofs.filter_filter. do 2 f_equal. apply filter_ext. intros c.
    assert (M : mem c (seen ++ [x]) = mem c seen || (x =? c)).
    { apply eq_true_iff_eq. rewrite orb_true_iff, !mem_In, in_app_iff, String.eqb_eq. cbn. intuition. }
    rewrite M, negb_orb. apply andb_comm.
Qed.
Lemma firsts_in l c : In c (firsts l) <-> In c l.
Proof.
  induction l as [|x l IH]; cbn; [tauto|]. rewrite filter_In, IH, negb_true_iff, String.eqb_neq. destruct (String.string_dec x c); intuition.
Qed.
Lemma firsts_app a b : firsts (app a b) = app (firsts a) (filter (fun c => negb (mem c a)) (firsts b)).
Proof.
  induction a as [|x a IH]; cbn [app firsts]; [cbn; symmetry; apply Table_proofs.filter_all; reflexivity|]. rewrite IH. cbn [app]. f_equal. rewrite filter_app. f_equal. rewrite Table_proofs.filter_filter. apply filter_ext.
  intros c. unfold mem. cbn [existsb]. rewrite negb_orb, (String.eqb_sym c x). apply andb_comm.
Qed.
Lemma names_of_firsts rs : names_of rs = firsts (flat_map (map fst) rs).
Proof.
  unfold names_of. assert (G : forall seen, (forall c, In c (firsts seen) <-> In c seen) -> firsts seen = seen -> fold_left (fun seen r => add_names seen (map fst r)) rs seen = firsts (app seen (flat_map (map fst) rs))).
  { induction rs as [|r rs IH]; cbn [fold_left flat_map]; intros seen _ H; [rewrite app_nil_r; symmetry; exact H|].
    assert (A : add_names seen (map fst r) = firsts (app seen (map fst r))) by (rewrite add_names_firsts, firsts_app, H; reflexivity).
    assert (I : forall l, firsts (firsts l) = firsts l).
    { clear. induction l as [|x l IHl]; [reflexivity|]. cbn [firsts]. f_equal.
      assert (F : forall f (m : list string), firsts (filter f m) = filter f (firsts m)).
      { clear. intros f. induction m as [|y m IH]; [reflexivity|]. cbn [filter firsts]. destruct (f y) eqn:E; cbn [firsts filter]; [rewrite IH, !Table_proofs.filter_filter; f_equal; apply filter_ext; intros; apply andb_comm|].
        rewrite IH, Table_proofs.filter_filter. apply filter_ext. intros z. destruct (String.eqb_spec y z) as [<-|]; [rewrite E|]; reflexivity. }
      rewrite F, IHl, Table_proofs.filter_filter. apply filter_ext. intros z. apply andb_diag. }
    rewrite IH; [|intros; apply firsts_in|rewrite A; apply I]. rewrite A, app_assoc. rewrite (firsts_app (firsts _)), (firsts_app (app seen _)), I. f_equal. apply filter_ext. intros c. f_equal. apply eq_true_iff_eq. rewrite !mem_In. apply firsts_in. }
  apply (G []); [tauto|reflexivity].
Qed.
Lemma names_nonempty rs : (exists r : record, In r rs /\ r <> []) -> names_of rs <> [].
Proof.
  intros (r & Hr & Hn) E. destruct r as [|[c v] r]; [contradiction|]. assert (In c (names_of rs)) as H by (apply names_of_in; eexists; split; [exact Hr|left; reflexivity]). rewrite E in H. exact H.
Qed.
Lemma kept_iff iu ii c : kept iu ii c = true <-> (iu = false -> ~ ends_in about_uncertainty c) /\ (ii = false -> ~ ends_in about_ids c).
Proof.
  unfold kept. rewrite andb_true_iff, !orb_true_iff, !negb_true_iff. change about_uncertainty with uncertainty_suffixes. change about_ids with id_suffixes. rewrite <- !matches_end_spec.
  destruct iu, ii, (matches_end uncertainty_suffixes c), (matches_end id_suffixes c); intuition congruence.
Qed.
Lemma says_In (r : record) c s : says r c s -> In c (map fst r).
Proof. apply dget_In. Qed.
Lemma filter_sel {A} (f : A -> bool) P l : (forall x, f x = true <-> P x) -> selected P l (filter f l).
Proof. intros H. induction l as [|x l IH]; [constructor|]. cbn. destruct (f x) eqn:E; [apply sel_take; [apply H; exact E|exact IH]|apply sel_drop; [rewrite <- H, E; discriminate|exact IH]]. Qed.

Section Any.
  Context {T : Type} {N : Num T}.
  (** ** C207: a row for every record, in their order; the columns that some record mentions, in the
      order of their first mention, without those that are not wanted *)
  Theorem C207_rows_and_columns k rs iu ii k' (t : table T) : table_from_dict k rs iu ii = Ok (k', t) -> (exists r : record, In r rs /\ r <> []) ->
    t_rows t = List.length rs /\ Forall (fun cl => List.length (snd cl) = List.length rs) (t_cols t) /\ NoDup (map fst (t_cols t)) /\
    selected (fun c => (iu = false -> ~ ends_in about_uncertainty c) /\ (ii = false -> ~ ends_in about_ids c)) (firsts (flat_map (map fst) rs)) (map fst (t_cols t)).
  Proof.
    intros H Hn. apply names_nonempty in Hn. split; [|split; [|split]].
    - apply (from_dict_column _ _ _ _ _ _ "" H Hn).
    - apply Forall_forall. intros [c l] Hi. cbn [snd]. destruct (from_dict_column _ _ _ _ _ _ c H Hn) as (_ & A & ND & _).
      assert (D : dget (t_cols t) c = Some l).
      { clear -ND Hi. induction (t_cols t) as [|[x y] d IH]; [destruct Hi|]. cbn [map fst] in ND. inversion_clear ND as [|? ? N1 N2]. cbn [dget]. destruct Hi as [[= -> ->]|Hi]; [rewrite String.eqb_refl; reflexivity|].
        destruct (String.eqb_spec c x) as [-> |]; [|auto]. exfalso. apply N1. apply (in_map fst) in Hi. exact Hi. }
      rewrite (convert_length _ _ _ (A l D)), map_length. reflexivity.
    - apply (from_dict_column _ _ _ _ _ _ "" H Hn).
    - destruct (from_dict_shape _ _ _ _ _ _ H) as (t0 & E & -> & _). cbn [only t_cols].
      assert (Hf : t_cols (@frame_of T rs) <> []) by (intros K; apply Hn; rewrite <- (@frame_names T), K; reflexivity).
      rewrite init_nonempty in E by exact Hf. destruct (convert_columns _) as [cs|] eqn:C; [|discriminate]. injection E; intros <-. cbn [t_cols]. destruct (convert_columns_ok _ _ C) as (A & _). rewrite frame_names in A.
      rewrite <- names_of_firsts, <- A. replace (map fst (filter (fun ce => kept iu ii (fst ce)) cs)) with (filter (kept iu ii) (map fst cs)).
      + apply filter_sel. intros c. apply kept_iff.
      + clear. induction cs as [|[a b] cs IH]; [reflexivity|]. cbn. destruct (kept iu ii a); cbn; rewrite IH; reflexivity.
  Qed.
  (** no records: an empty catalogue with the default columns *)
  Theorem C207_no_records k iu ii : k <> PlainFrame -> exists k', @table_from_dict T N k [] iu ii = Ok (k', mktable 0 (map (fun c => (c, [])) ["longitude"; "latitude"; "depth"; "time"; "magnitude"; "magnitude_type"])) /\ k' <> PlainFrame.
  Proof. intros Hk. destruct iu, ii; [exists k|destruct k; [contradiction| |]; eexists|eexists|eexists]; (split; [reflexivity|]); (exact Hk || discriminate). Qed.
  (** the class that fits the columns, if columns were dropped; otherwise the class asked for *)
  Theorem C207_class k rs iu ii k' (t : table T) : table_from_dict k rs iu ii = Ok (k', t) ->
    (iu = true -> ii = true -> k' = k) /\ (iu = false \/ ii = false -> fits (map fst (t_cols t)) k').
  Proof. intros H. destruct (from_dict_shape _ _ _ _ _ _ H) as (t0 & _ & _ & A & B). split; [exact A|]. intros K. apply constructor_fits. symmetry. apply B. exact K. Qed.

  (** ** C208: texts *)
  Lemma kept_column k rs iu ii k' (t : table T) c i r : table_from_dict k rs iu ii = Ok (k', t) -> nth_error rs i = Some r -> In c (names_of rs) -> kept iu ii c = true ->
    exists l, dget (t_cols t) c = Some l /\ convert_column c (map (fun r => entry_of r c) rs) = Ok l.
  Proof.
    intros H Hi Hc Hk. assert (Hn : names_of rs <> []) by (intros K; rewrite K in Hc; exact Hc).
    destruct (from_dict_column _ _ _ _ _ _ c H Hn) as (A & B & _). destruct (In_dget (t_cols t) c) as [l Hl]; [apply A; auto|]. exists l. split; [exact Hl|apply B; exact Hl].
  Qed.
  Lemma mentioned rs (r : record) c i : nth_error rs i = Some r -> In c (map fst r) -> In c (names_of rs).
  Proof. intros H1 H2. apply names_of_in. exists r. split; [eapply nth_error_In; exact H1|exact H2]. Qed.
  Theorem C208_texts k rs iu ii k' (t : table T) c i (r : record) : table_from_dict k rs iu ii = Ok (k', t) -> In c text_names -> nth_error rs i = Some r ->
    (forall s, says r c s -> at_ (t_cols t) c i (if in_dec String.string_dec s nothing then ENone else EText s)) /\
    ((exists r', In r' rs /\ In c (map fst r')) -> silent r c -> at_ (t_cols t) c i ENone).
  Proof.
    intros H Hc Hi. assert (Hk : kept iu ii c = true) by (destruct Hc as [<-|[<-|[]]]; destruct iu, ii; reflexivity).
    assert (Hcv : forall l : list (Table_model.entry T), convert_column c l = Ok (map clean l)) by (destruct Hc as [<-|[<-|[]]]; reflexivity).
    split.
    - intros s Hs. destruct (kept_column _ _ _ _ _ _ c i r H Hi (mentioned _ _ _ _ Hi (says_In _ _ _ Hs)) Hk) as (l & L1 & L2). rewrite Hcv in L2. injection L2; intros <-. exists (map clean (map (fun r => entry_of r c) rs)). split; [exact L1|].
      rewrite !nth_error_map, Hi. cbn [option_map]. unfold entry_of. rewrite Hs. cbn [clean]. unfold clean_text. change missing_texts with nothing. destruct (in_dec String.string_dec s nothing) as [I|I].
      + rewrite (proj2 (mem_In _ _) I). reflexivity.
      + rewrite (proj2 (mem_false _ _) I). reflexivity.
    - intros Hm Hs. destruct (kept_column _ _ _ _ _ _ c i r H Hi (proj2 (names_of_in _ _) Hm) Hk) as (l & L1 & L2). rewrite Hcv in L2. injection L2; intros <-. eexists. split; [exact L1|].
      rewrite !nth_error_map, Hi. cbn. unfold entry_of. destruct Hs as [-> | ->]; reflexivity.
  Qed.
  (** other columns keep their texts *)
  Theorem C208_other_columns k rs iu ii k' (t : table T) c i (r : record) : table_from_dict k rs iu ii = Ok (k', t) ->
    ~ In c (app number_names ("time" :: text_names)) -> (iu = false -> ~ ends_in about_uncertainty c) -> (ii = false -> ~ ends_in about_ids c) -> nth_error rs i = Some r ->
    (forall s, says r c s -> at_ (t_cols t) c i (EText s)) /\ ((exists r', In r' rs /\ In c (map fst r')) -> silent r c -> at_ (t_cols t) c i ENone).
  Proof.
    intros H Hc H1 H2 Hi. assert (Hk : kept iu ii c = true) by (apply kept_iff; auto). rewrite in_app_iff in Hc. cbn [In] in Hc.
    assert (Hcv : forall l : list (Table_model.entry T), convert_column c l = Ok l).
    { intros l. unfold convert_column. change numeric_cols with number_names. change string_cols with text_names. rewrite (proj2 (mem_false c number_names)) by tauto. rewrite (proj2 (String.eqb_neq c "time")) by (intros ->; tauto). rewrite (proj2 (mem_false c text_names)) by tauto. reflexivity. }
    split.
    - intros s Hs. destruct (kept_column _ _ _ _ _ _ c i r H Hi (mentioned _ _ _ _ Hi (says_In _ _ _ Hs)) Hk) as (l & L1 & L2). rewrite Hcv in L2. injection L2; intros <-. eexists. split; [exact L1|]. rewrite nth_error_map, Hi. cbn. unfold entry_of. rewrite Hs. reflexivity.
    - intros Hm Hs. destruct (kept_column _ _ _ _ _ _ c i r H Hi (proj2 (names_of_in _ _) Hm) Hk) as (l & L1 & L2). rewrite Hcv in L2. injection L2; intros <-. eexists. split; [exact L1|]. rewrite nth_error_map, Hi. cbn. unfold entry_of. destruct Hs as [-> | ->]; reflexivity.
  Qed.

  (** ** times: written with T; the fraction of a second is kept if all times are in the range of pandas' timestamps *)
  Definition time_entry (r : record) : Spec_Times.entry -> Prop := fun e =>
    match e with Missing => silent r "time" | Given _ => False | Text sep t => sep = "T"%char /\ says r "time" (time_text "T" t true) end.
  Lemma time_cells rs es : Forall2 time_entry rs es -> map time_cell (map (fun r => @entry_of T r "time") rs) = map (Props_Times.cell_of true) es.
  Proof.
    induction 1 as [|r e rs es H _ IH]; [reflexivity|]. cbn [map]. rewrite IH. f_equal. unfold entry_of. destruct e as [|ns|sep x]; cbn in H |- *; [destruct H as [-> | ->]; reflexivity|contradiction|]. destruct H as [-> H]. rewrite H. reflexivity.
  Qed.
  Lemma no_given rs es : Forall2 time_entry rs es -> Props_Times.no_mix true es.
  Proof. intros F _ ns K. induction F as [|r e rs es H F IH]; [destruct K|]. destruct K as [-> |K]; [exact H|auto]. Qed.
  Lemma all_T rs es : Forall2 time_entry rs es -> Forall with_T es.
  Proof. induction 1 as [|r e rs es H F IH]; constructor; [|exact IH]. destruct e; cbn in *; tauto. Qed.
  Lemma time_converts_any rs es : Forall2 time_entry rs es -> Forall entry_ok es ->
    (Forall entry_in_range es /\ convert_column "time" (map (fun r => @entry_of T r "time") rs) = Ok (map of_time (map meant es))) \/
    (Exists (fun e => ~ entry_in_range e) es /\ convert_column "time" (map (fun r => @entry_of T r "time") rs) = Ok (map of_time (map to_the_second es))).
  Proof.
    intros F Ok_. unfold convert_column. change (mem "time" numeric_cols) with false. change ("time" =? "time") with true. cbv iota. rewrite (time_cells _ _ F).
    destruct (Props_Times.C177_times_with_T true es (no_given _ _ F) Ok_ (all_T _ _ F)) as [[R ->]|[R ->]]; [left|right]; (split; [exact R|reflexivity]).
  Qed.
  Lemma time_converts_some rs es : Forall2 time_entry rs es -> Forall entry_ok es -> exists l, convert_column "time" (map (fun r => @entry_of T r "time") rs) = Ok l.
  Proof. intros F O. destruct (time_converts_any _ _ F O) as [[_ ->]|[_ ->]]; eexists; reflexivity. Qed.
  Lemma time_entry_at (rs : list pd) es i e : Forall2 time_entry rs es -> nth_error es i = Some e -> exists r : record, @nth_error pd rs i = Some r /\ time_entry r e.
  Proof. intros F. revert i. induction F as [|x y rs es H F IH]; intros [|i] Hi; try discriminate; [injection Hi as ->; exists x; split; [reflexivity|exact H]|apply IH; exact Hi]. Qed.
  Lemma times_at k rs iu ii k' (t : table T) es i e f : table_from_dict k rs iu ii = Ok (k', t) -> Forall2 time_entry rs es ->
    convert_column "time" (map (fun r => @entry_of T r "time") rs) = Ok (map of_time (map f es)) -> nth_error es i = Some e ->
    (exists r', In r' rs /\ In "time" (map fst r')) -> at_ (t_cols t) "time" i (of_time (f e)).
  Proof.
    intros H F C Hn Hm. assert (Hk : kept iu ii "time" = true) by (destruct iu, ii; reflexivity).
    destruct (time_entry_at _ _ _ _ F Hn) as (r & Hi & Hs). destruct (kept_column _ _ _ _ _ _ "time" i r H Hi (proj2 (names_of_in _ _) Hm) Hk) as (l & L1 & L2). rewrite C in L2. injection L2; intros <-. eexists. split; [exact L1|].
    rewrite !nth_error_map, Hn. reflexivity.
  Qed.
  Lemma says_mentioned (rs : list pd) es i x : Forall2 time_entry rs es -> nth_error es i = Some (Text "T" x) -> exists r', In r' rs /\ In "time" (map fst r').
  Proof. intros F Hn. destruct (time_entry_at _ _ _ _ F Hn) as (r & Hi & _ & Hs). exists r. split; [exact (nth_error_In _ _ Hi)|exact (says_In _ _ _ Hs)]. Qed.
  Theorem C208_times k rs iu ii k' (t : table T) es i : table_from_dict k rs iu ii = Ok (k', t) -> Forall2 time_entry rs es -> Forall entry_ok es ->
    (forall x, nth_error es i = Some (Text "T" x) ->
       (Forall entry_in_range es -> at_ (t_cols t) "time" i (ETime (instant x))) /\
       (Exists (fun e => ~ entry_in_range e) es -> at_ (t_cols t) "time" i (ETime (whole_second x)))) /\
    ((exists r', In r' rs /\ In "time" (map fst r')) -> nth_error es i = Some Missing -> at_ (t_cols t) "time" i ENone).
  Proof.
    intros H F Ho.
    assert (X : Forall entry_in_range es -> Exists (fun e => ~ entry_in_range e) es -> False).
    { intros A B. rewrite Exists_exists in B. destruct B as (e & B1 & B2). rewrite Forall_forall in A. exact (B2 (A e B1)). }
    destruct (time_converts_any _ _ F Ho) as [[R C]|[R C]].
    - split; [intros x Hn; split; [intros _|intros R'; destruct (X R R')]; exact (times_at _ _ _ _ _ _ _ _ _ _ H F C Hn (says_mentioned _ _ _ _ F Hn))|intros Hm Hn; exact (times_at _ _ _ _ _ _ _ _ _ _ H F C Hn Hm)].
    - split; [intros x Hn; split; [intros R'; destruct (X R' R)|intros _]; exact (times_at _ _ _ _ _ _ _ _ _ _ H F C Hn (says_mentioned _ _ _ _ F Hn))|intros Hm Hn; exact (times_at _ _ _ _ _ _ _ _ _ _ H F C Hn Hm)].
  Qed.
  (** records with a magnitude and such times make a catalogue *)
  Theorem C207_succeeds k rs iu ii es : k <> PlainFrame -> (exists r : record, In r rs /\ In "magnitude" (map fst r)) ->
    Forall2 time_entry rs es -> Forall entry_ok es ->
    exists k' (t : table T), table_from_dict k rs iu ii = Ok (k', t) /\ k' <> PlainFrame.
  Proof.
    intros Hk Hm F Ho. assert (Hm' : In "magnitude" (names_of rs)) by (apply names_of_in; exact Hm).
    assert (Hf : t_cols (@frame_of T rs) <> []) by (intros K; assert (names_of rs = []) as K' by (rewrite <- (@frame_names T), K; reflexivity); rewrite K' in Hm'; exact Hm').
    destruct (convert_columns_some (t_cols (@frame_of T rs))) as [cs C].
    { intros l Hl. assert (In "time" (names_of rs)) as It by (rewrite <- (@frame_names T); exact (dget_In _ _ _ Hl)). rewrite (frame_column _ _ It) in Hl. injection Hl; intros <-. apply (time_converts_some _ _ F Ho). }
    { rewrite frame_names. apply names_of_nodup. }
    destruct (convert_columns_ok _ _ C) as (A & B & _). rewrite frame_names in A.
    unfold table_from_dict. rewrite init_nonempty by exact Hf. rewrite C. cbn [rmap rbind].
    set (t0 := mktable _ cs). assert (B0 : converted (t_cols t0)) by exact B.
    assert (M0 : In "magnitude" (map fst (t_cols t0))) by (cbn [t0 t_cols]; rewrite A; exact Hm').
    assert (W : forall p (t : table T), p "magnitude" = false -> In "magnitude" (map fst (t_cols t)) -> In "magnitude" (map fst (t_cols (without p t)))).
    { intros p t Hp I. apply in_map_iff in I. destruct I as ((a & b) & I1 & I2). cbn in I1. subst a. apply in_map_iff. exists ("magnitude", b). split; [reflexivity|]. cbn [without t_cols]. apply filter_In. split; [exact I2|]. cbn. rewrite Hp. reflexivity. }
    assert (P : forall p (t : table T), p "magnitude" = false -> In "magnitude" (map fst (t_cols t)) -> constructor_class (map fst (t_cols (without p t))) <> PlainFrame).
    { intros p t Hp I E. apply class_magnitude in E. apply E. apply W; assumption. }
    destruct iu, ii; cbn [rbind fst].
    - exists k, t0. split; [reflexivity|exact Hk].
    - rewrite drop_cols_ok by exact B0. destruct k; [contradiction| |]; (eexists _, _; split; [reflexivity|apply P; [reflexivity|exact M0]]).
    - rewrite drop_cols_ok by exact B0. cbn [rbind]. eexists _, _. split; [reflexivity|]. apply P; [reflexivity|exact M0].
    - rewrite drop_cols_ok by exact B0. cbn [rbind fst]. pose proof (P (matches_end uncertainty_suffixes) t0 eq_refl M0) as P1. set (t1 := without (matches_end uncertainty_suffixes) t0) in *.
      assert (M1 : In "magnitude" (map fst (t_cols t1))) by (apply W; [reflexivity|exact M0]). pose proof (without_converted (matches_end uncertainty_suffixes) t0 B0) as B1. fold t1 in B1.
      destruct (constructor_class (map fst (t_cols t1))) eqn:E; [contradiction| |]; rewrite drop_cols_ok by exact B1; (eexists _, _; split; [reflexivity|]; apply P; [reflexivity|exact M1]).
  Qed.

  (** ** C209: the conversions run again in every operation, and change nothing *)
  Theorem C209_idempotent (t t' : table T) : init_table t = Ok t' -> init_table t' = Ok t'.
  Proof. intros H. destruct (init_converted _ _ H) as [A B]. apply init_again; assumption. Qed.
  Theorem C209_dropping_columns (t t' : table T) k p : init_table t = Ok t' ->
    exists k' u, drop_cols p (k, t') = Ok (k', u) /\ t_rows u = t_rows t' /\
      (forall c, p c = false -> dget (t_cols u) c = dget (t_cols t') c) /\ (forall c, p c = true -> dget (t_cols u) c = None).
  Proof.
    intros H. destruct (init_converted _ _ H) as [A B]. rewrite drop_cols_ok by exact A. eexists _, _. split; [reflexivity|]. split; [reflexivity|]. cbn [without t_cols]. split.
    - intros c Hc. apply (dget_filter (fun c => negb (p c))). rewrite Hc. reflexivity.
    - intros c Hc. destruct (dget _ c) as [l|] eqn:E; [|reflexivity]. exfalso. apply dget_In in E. apply in_map_iff in E. destruct E as (x & <- & E). apply filter_In in E. rewrite Hc in E. destruct E. discriminate.
  Qed.

  (** ** C210: records without magnitudes.  The frame that drop_uncertainties returns is not a Catalog any more,
      and has no method drop_ids. *)
  Theorem C210_without_magnitude_refuted k rs es : (exists r : record, In r rs /\ r <> []) -> (forall r : record, In r rs -> ~ In "magnitude" (map fst r)) ->
    Forall2 time_entry rs es -> Forall entry_ok es ->
    @table_from_dict T N k rs false false = Err AttributeError.
  Proof.
    intros Hn Hm F Ho. apply names_nonempty in Hn.
    assert (Hf : t_cols (@frame_of T rs) <> []) by (intros K; apply Hn; rewrite <- (@frame_names T), K; reflexivity).
    destruct (convert_columns_some (t_cols (@frame_of T rs))) as [cs C].
    { intros l Hl. assert (In "time" (names_of rs)) as It by (rewrite <- (@frame_names T); exact (dget_In _ _ _ Hl)). rewrite (frame_column _ _ It) in Hl. injection Hl; intros <-. apply (time_converts_some _ _ F Ho). }
    { rewrite frame_names. apply names_of_nodup. }
    destruct (convert_columns_ok _ _ C) as (A & B & _). rewrite frame_names in A.
    unfold table_from_dict. rewrite init_nonempty by exact Hf. rewrite C. cbn [rmap rbind]. rewrite drop_cols_ok by exact B. cbn [rbind fst].
    rewrite (proj2 (class_magnitude _)); [reflexivity|]. intros K. cbn [without t_cols t_rows] in K. apply in_map_iff in K. destruct K as ((a & b) & K1 & K2). cbn in K1. subst a. apply filter_In in K2. destruct K2 as [K2 _].
    apply (in_map fst) in K2. rewrite A in K2. apply names_of_in in K2. destruct K2 as (r & R1 & R2). exact (Hm r R1 R2).
  Qed.
End Any.
Print Assumptions C207_rows_and_columns.
Print Assumptions C207_no_records.
Print Assumptions C207_class.
Print Assumptions C207_succeeds.
Print Assumptions C208_texts.
Print Assumptions C208_other_columns.
Print Assumptions C208_times.
Print Assumptions C209_idempotent.
Print Assumptions C209_dropping_columns.
Print Assumptions C210_without_magnitude_refuted.

(** ** C208: numbers, in double precision *)
Section Doubles.
  Context (L : libm).
  #[local] Instance FT : Num xr := F64 L.
  Lemma number_converts c (l : list (Table_model.entry xr)) : In c number_names -> convert_column c l = Ok (of_numeric (Numeric_model.to_numeric (map num_cell l))).
  Proof. intros H. unfold convert_column. change numeric_cols with number_names. rewrite (proj2 (mem_In c number_names) H). reflexivity. Qed.
  Lemma number_kept c iu ii : In c number_names -> kept iu ii c = true.
  Proof. intros H. destruct iu, ii; cbn [number_names In] in H; repeat (destruct H as [<-|H]; [reflexivity|]); destruct H. Qed.
  Lemma number_cell c (rs : list pd) i (r : record) s : @nth_error pd rs i = Some r -> says r c s -> nth_error (map num_cell (map (fun r => @entry_of xr r c) rs)) i = Some (Numeric_model.CText s).
  Proof. intros Hi Hs. rewrite !nth_error_map, Hi. cbn. unfold entry_of. rewrite Hs. reflexivity. Qed.
  Lemma number_missing c (rs : list pd) i (r : record) : @nth_error pd rs i = Some r -> silent r c -> nth_error (map num_cell (map (fun r => @entry_of xr r c) rs)) i = Some Numeric_model.CMissing.
  Proof. intros Hi Hs. rewrite !nth_error_map, Hi. cbn. unfold entry_of. destruct Hs as [-> | ->]; reflexivity. Qed.
  Theorem C208_numbers k rs iu ii k' (t : table xr) c i (r : record) s n : table_from_dict k rs iu ii = Ok (k', t) -> In c number_names -> nth_error rs i = Some r ->
    says r c s -> spells s n -> (digit_count n <= 17)%nat -> (mantissa n <= 2 ^ 53)%Z -> (-22 <= exponent n <= 22)%Z ->
    at_ (t_cols t) c i (EFloat (Fin (rnd (value n)))) \/ exists z, at_ (t_cols t) c i (EInt z) /\ IZR z = value n.
  Proof.
    intros H Hc Hi Hs Sp D M X. destruct (kept_column _ _ _ _ _ _ c i r H Hi (mentioned _ _ _ _ Hi (says_In _ _ _ Hs)) (number_kept _ _ _ Hc)) as (l & L1 & L2). rewrite number_converts in L2 by exact Hc. injection L2; intros <-.
    pose proof (Props_Numeric.C198_nearest_double L _ i s n (number_cell c rs i r s Hi Hs) Sp D M X) as P. change (Props_Numeric.FIn L) with FT in P.
    destruct (Numeric_model.to_numeric _) as [zs|fs].
    - destruct P as (z & P1 & P2). right. exists z. split; [|exact P2]. exists (map EInt zs). split; [exact L1|]. rewrite nth_error_map, P1. reflexivity.
    - left. exists (map EFloat fs). split; [exact L1|]. rewrite nth_error_map, P. reflexivity.
  Qed.
  (** NaN where there is no number: nothing is said, or something else *)
  Theorem C208_no_numbers k rs iu ii k' (t : table xr) c i (r : record) : table_from_dict k rs iu ii = Ok (k', t) -> In c number_names -> nth_error rs i = Some r ->
    (exists r', In r' rs /\ In c (map fst r')) ->
    silent r c \/ (exists s, says r c s /\ (forall n, ~ spells s n) /\ forall w, In w infinities -> ~ spelled_like s w) -> at_ (t_cols t) c i (EFloat NaN).
  Proof.
    intros H Hc Hi Hm Hs. destruct (kept_column _ _ _ _ _ _ c i r H Hi (proj2 (names_of_in _ _) Hm) (number_kept _ _ _ Hc)) as (l & L1 & L2). rewrite number_converts in L2 by exact Hc. injection L2; intros <-.
    exists (of_numeric (Numeric_model.to_numeric (map num_cell (map (fun r => @entry_of xr r c) rs)))). split; [exact L1|].
    destruct Hs as [Hs|(s & Hs & Q1 & Q2)].
    - pose proof (number_missing c rs i r Hi Hs) as Hcell.
      destruct (Props_Numeric.C199_other_entries L _ i _ Hcell) as (fs & E1 & E2). change (Props_Numeric.FIn L) with FT in E1. rewrite E1. cbn [of_numeric]. rewrite nth_error_map, E2. reflexivity.
    - destruct (Props_Numeric.C199_not_a_number L _ i s (number_cell c rs i r s Hi Hs) Q1 Q2) as (fs & E1 & E2 & _). change (Props_Numeric.FIn L) with FT in E1. rewrite E1. cbn [of_numeric]. rewrite nth_error_map, E2. reflexivity.
  Qed.
End Doubles.
Print Assumptions C208_numbers.
Print Assumptions C208_no_numbers.
