(** * C211-C215: from a document, an export or a download to the table of a Catalog *)
From Coq Require Import ZArith QArith List Bool String Ascii Lia Reals Permutation.
From Verif Require Import Base Num XR F64 Dict Utils_model QuakeML_model Spec_QuakeML QuakeML_proofs Props_QuakeML Props_QuakeML2 Props_QuakeML3 Spec_Export Spec_Xml Xml_model Xml_proofs Recut_proofs Props_Xml Props_Xml2 Spec_Spelling Props_Spelling.
From Verif Require Import Export_model Export_proofs Props_Export Props_Export2 ExportText_model Props_ExportText.
From Verif Require Import Client_model Spec_Client Props_Client ClientText_model Spec_Download Props_Download Download_model.
From Verif Require Import Catalog_model Spec_Catalog Table_model Spec_Table Spec_F64 Spec_Numeric Spec_Times Props_Table.
From Verif Require Table_proofs.
Import ListNotations.
Open Scope string_scope.

Section Any.
  Context {T : Type} {N : Num T}.
  Variables (cut : list sax -> string -> list string) (tf : option string -> res Q) (tm : option string -> res Z) (so : list (option string) -> list (option string)).
  Notation from_quakeml := (@from_quakeml T N cut tf tm so).

  (** ** C211: the path of a file and its contents give the same catalogue *)
  Theorem C211_file_or_text files k path h d b ia iu ii iq : fair_cut solid cut -> heading h -> blank b -> doc_ok d -> (forall ps, d <> DText ps) -> safe (plain_of_doc d) ->
    let text := (h ++ xml (plain_of_doc d) ++ b)%string in
    files path = Some text -> files text = None ->
    from_quakeml files k path ia iu ii iq = from_quakeml files k text ia iu ii iq /\
    from_quakeml files k text ia iu ii iq = make k (answer_of (QuakeML_model.parse_quakeml tf tm so ia iq (ser_doc (merge_doc d)))) iu ii.
  Proof.
    intros Hc Hh Hb Hok Hd HS text H1 H2. unfold Table_model.from_quakeml. rewrite H1, H2. destruct (C183_text cut tf tm so ia iq h d b Hc Hh Hb Hok Hd HS) as [A B]. fold text in A, B. rewrite A, B. split; reflexivity.
  Qed.
  (** the same in any spelling *)
  Theorem C211_any_spelling files k path h u d x v ia iu ii iq : fair_cut solid cut -> heading h -> misc u -> misc v -> doc_ok d -> (forall ps, d <> DText ps) -> written solid (plain_of_doc d) x ->
    let text := h ++ u ++ x ++ v in files path = Some text -> files text = None ->
    from_quakeml files k path ia iu ii iq = from_quakeml files k text ia iu ii iq /\
    from_quakeml files k text ia iu ii iq = make k (answer_of (QuakeML_model.parse_quakeml tf tm so ia iq (ser_doc (merge_doc d)))) iu ii.
  Proof.
    intros Hc Hh Hu Hv Hok Hd HW text H1 H2. unfold Table_model.from_quakeml. rewrite H1, H2. destruct (C216_any_spelling cut tf tm so ia iq h u d x v Hc Hh Hu Hv Hok Hd HW) as [A B]. fold text in A, B. rewrite A, B. split; reflexivity.
  Qed.
  (** a path that does not exist is not taken for a document *)
  Lemma norm_no_lt t : forall f, all (fun c => negb (Ascii.eqb c "<")) t = true -> all (fun c => negb (Ascii.eqb c "<")) (norm f t) = true.
  Proof.
    induction t as [|c t IH]; intros f H; [reflexivity|]. cbn [all] in H. apply andb_true_iff in H. destruct H as [H1 H2]. cbn [norm]. destruct (Ascii.eqb c CR); [|destruct (f && Ascii.eqb c LF)]; [apply (IH true); exact H2|apply IH; exact H2|]. cbn [all]. rewrite H1. apply IH. exact H2.
  Qed.
  Lemma run_no_lt t : all (fun c => negb (Ascii.eqb c "<")) t = true ->
    forall s, x_open s = [] -> x_root s = false -> x_out s = [] -> x_pend s = "" -> x_mode s = Begin \/ (exists k, x_mode s = Xml_model.Text k) ->
    finish cut (Xml_model.run cut s t) = Fault [] \/ finish cut (Xml_model.run cut s t) = Short [].
  Proof.
    assert (L : forall t, all (fun c => negb (Ascii.eqb c "<")) t = true ->
      forall s, x_open s = [] -> x_root s = false -> x_out s = [] -> x_pend s = "" -> x_mode s = Begin \/ (exists k, x_mode s = Xml_model.Text k) ->
      (exists s', Xml_model.run cut s t = Go s' /\ x_open s' = [] /\ x_root s' = false /\ x_out s' = [] /\ x_pend s' = "" /\ (x_mode s' = Begin \/ (exists k, x_mode s' = Xml_model.Text k))) \/ Xml_model.run cut s t = Bad []).
    { clear t. induction t as [|c t IH]; intros Ht s A B C D M; [left; exists s; auto 7|].
      cbn [all] in Ht. rewrite !andb_true_iff, !negb_true_iff in Ht. destruct Ht as [H1 Ht]. cbn [Xml_model.run].
      assert (E : Xml_model.step cut s c = if illegal c then Bad [] else if xspace c then goto s (Xml_model.Text 0) else Bad []).
      { unfold Xml_model.step. rewrite C. destruct (illegal c); [reflexivity|].
        assert (I : forall k, in_text s k c = if xspace c then goto s (Xml_model.Text 0) else Bad []) by (intros k; unfold in_text; change LT with "<"%char; rewrite H1, A, C; reflexivity).
        destruct M as [M|[k M]]; rewrite M; [change LT with "<"%char; rewrite H1|]; apply I. }
      rewrite E. destruct (illegal c); [right; reflexivity|]. destruct (xspace c); [|right; reflexivity]. unfold goto. apply IH; cbn; auto. right. eexists. reflexivity. }
    intros Ht s A B C D M. destruct (L t Ht s A B C D M) as [(s' & -> & A' & B' & C' & D' & M')| ->]; [right|left; reflexivity].
    cbn [finish]. unfold flush. rewrite A', B', C', D'. destruct M' as [-> |[j ->]]; reflexivity.
  Qed.
  Theorem C211_missing_file files k path ia iu ii iq : files path = None -> path <> "" -> (forall a c b, path = a ++ String c b -> c <> "<"%char) ->
    from_quakeml files k path ia iu ii iq = NotParsed.
  Proof.
    intros H Hn Hc. unfold Table_model.from_quakeml. rewrite H. unfold parse_quakeml_string. destruct (String.eqb_spec path ""); [contradiction|].
    assert (Ha : all (fun c => negb (Ascii.eqb c "<")) path = true).
    { clear -Hc. induction path as [|c p IH]; [reflexivity|]. cbn [all]. rewrite !andb_true_iff, !negb_true_iff. split; [apply Ascii.eqb_neq; exact (Hc "" c p eq_refl)|].
      apply IH. intros a x b ->. apply (Hc (String c a) x b). reflexivity. }
    unfold reading_of. destruct (run_no_lt (norm false path) (norm_no_lt path false Ha) x_init eq_refl eq_refl eq_refl eq_refl (or_introl eq_refl)) as [-> | ->]; reflexivity.
  Qed.
  (** ** C212: the empty path is not reported: the catalogue is empty *)
  Theorem C212_empty_path_refuted files k ia iu ii iq : files "" = None -> k <> PlainFrame ->
    exists k', from_quakeml files k "" ia iu ii iq = Made k' (mktable 0 (map (fun c => (c, [])) ["longitude"; "latitude"; "depth"; "time"; "magnitude"; "magnitude_type"])).
  Proof.
    intros H Hk. unfold Table_model.from_quakeml. rewrite H. change (parse_quakeml_string cut tf tm so ia iq "") with (Records []). cbn [make].
    destruct (@C207_no_records T N k iu ii Hk) as (k' & E & _). exists k'. rewrite E. reflexivity.
  Qed.

  (** ** C214: uncertainties, secondary magnitudes and the count of depth phases stay texts *)
  Theorem C214_texts_for_numbers_refuted k rs k' (t : table T) c i (r : Spec_Table.record) s : table_from_dict k rs true true = Ok (k', t) -> nth_error rs i = Some r -> says r c s ->
    (exists v e, In e about_uncertainty /\ c = v ++ e) \/ (exists ty, c = "magnitude_" ++ ty /\ ty <> "type" /\ ~ ends_in about_ids c) \/ c = "depthphasecount" ->
    at_ (t_cols t) c i (EText s).
  Proof.
    intros H Hi Hs Hc. apply (C208_other_columns k rs true true k' t c i r H); auto; try discriminate.
    intros K. destruct Hc as [(v & e & He & ->)|[(ty & -> & Hty & _)| ->]].
      + assert (M : forallb (fun x => negb (matches_end uncertainty_suffixes x)) (app number_names ("time" :: text_names)) = true) by reflexivity.
        rewrite forallb_forall in M. apply M, negb_true_iff in K. assert (matches_end uncertainty_suffixes (v ++ e) = true) as Q by (apply Props_Catalog.matches_end_spec; exists v, e; split; [exact He|left; reflexivity]). congruence.
      + assert (M : forall x, In x (app number_names ("time" :: text_names)) -> prefix "magnitude_" x = true -> x = "magnitude_type").
        { intros x Hx. cbn [number_names text_names app In] in Hx. repeat (destruct Hx as [<-|Hx]; [vm_compute; intros; try discriminate; reflexivity|]). destruct Hx. }
        apply M in K; [|cbn; destruct ty; reflexivity]. apply Hty. cbn in K. injection K as K. exact K.
      + cbn [number_names text_names app In] in K. repeat (destruct K as [K|K]; [discriminate|]). destruct K.
  Qed.
End Any.

Print Assumptions C211_file_or_text.
Print Assumptions C211_any_spelling.
Print Assumptions C211_missing_file.
Print Assumptions C212_empty_path_refuted.
Print Assumptions C214_texts_for_numbers_refuted.

(** ** C213: export and import *)
Definition time_known (row : dict val) (x : stated) : Prop := dget row "time" = Some (Val (time_text "T" x true)).
Lemma same_time a b : st_valid a -> st_valid b -> time_text "T" a true = time_text "T" b true -> instant a = instant b /\ whole_second a = whole_second b.
Proof.
  intros Va Vb Q. pose proof (Props_Times.iso_reads "T" a true (or_introl eq_refl) Va) as I1. rewrite Q, (Props_Times.iso_reads "T" b true (or_introl eq_refl) Vb) in I1. injection I1 as I1. split; [symmetry; exact I1|].
  pose proof (Props_Times.fallback_T true (Text "T" a) (conj (or_introl eq_refl) Va) eq_refl) as J1. pose proof (Props_Times.fallback_T true (Text "T" b) (conj (or_introl eq_refl) Vb) eq_refl) as J2. cbn [Props_Times.cell_of] in J1, J2. rewrite Q, J2 in J1. injection J1 as J1. symmetry. exact J1.
Qed.
Section RoundTrip.
  Context (L : libm).
  #[local] Instance FX : Num xr := F64 L.
  Variables (cut : list sax -> string -> list string) (tf : option string -> res Q) (tm : option string -> res Z) (so : list (option string) -> list (option string)).
  (** a number of the table after the round trip *)
  Definition number_at (t : table xr) (c : string) (i : nat) (x : R) : Prop :=
    at_ (t_cols t) c i (EFloat (Fin (rnd x))) \/ exists z, at_ (t_cols t) c i (EInt z) /\ IZR z = x.
  Lemma forall2_nth {A B} (P : A -> B -> Prop) l m i a : Forall2 P l m -> nth_error l i = Some a -> exists b, nth_error m i = Some b /\ P a b.
  Proof. intros F. revert i. induction F as [|x y l m H F IH]; intros [|i] E; try discriminate; [injection E as <-; exists y; split; [reflexivity|exact H]|apply IH; exact E]. Qed.
  Lemma forall2_in {A B} (P : A -> B -> Prop) l m a : Forall2 P l m -> In a l -> exists b, In b m /\ P a b.
  Proof. intros F. induction F as [|x y l m H F IH]; [intros []|]. intros [<-|E]; [exists y; split; [left; reflexivity|exact H]|]. destruct (IH E) as (b & B1 & B2). exists b. split; [right; exact B1|exact B2]. Qed.
  Lemma picked_in {A} (P : A -> Prop) l l' x : picked P l l' -> In x l' -> In x l /\ P x.
  Proof. induction 1 as [|y l l' H _ IH|y l l' H _ IH]; [intros []| |]; cbn [In]; [intros [<-|K]; [auto|]|intros K]; apply IH in K; tauto. Qed.
  Lemma picked_keeps {A} (P : A -> Prop) l l' x : picked P l l' -> In x l -> P x -> In x l'.
  Proof. induction 1 as [|y l l' H _ IH|y l l' H _ IH]; [intros []| |]; cbn [In]; intros [<-|K] Q; auto; contradiction. Qed.
  Theorem C213_round_trip int_text agencyID author columns fresh rows k iu ii iq : fair_cut solid cut -> arranges so -> k <> PlainFrame ->
    good_table columns rows -> (forall s, presentable (int_text s)) -> (forall i c, presentable (fresh i c)) ->
    writable_table columns rows -> writable agencyID -> writable author -> (forall s, writable (int_text s)) -> (forall i c, writable (fresh i c)) ->
    (forall row, In row rows -> row_complete row -> exists x, time_known row x /\ st_valid x) ->
    (exists row, In row rows /\ row_complete row /\ Spec_Export.known (dget row "magnitude")) ->
    exists text rows' k' (t : table xr), to_quakeml_text int_text agencyID author columns fresh rows = Ok text /\ picked row_complete rows rows' /\ k' <> PlainFrame /\
      (forall files path, files path = Some text -> from_quakeml cut tf tm so files k path true iu ii iq = Made k' t) /\
      (forall files, files text = None -> from_quakeml cut tf tm so files k text true iu ii iq = Made k' t) /\
      t_rows t = List.length rows' /\ Forall (fun cl => List.length (snd cl) = List.length rows') (t_cols t) /\
      forall i row, nth_error rows' i = Some row ->
        (forall c s n, In c ["longitude"; "latitude"; "depth"; "magnitude"] -> dget row c = Some (Val s) -> spells s n -> (digit_count n <= 17)%nat -> (mantissa n <= 2 ^ 53)%Z -> (-22 <= exponent n <= 22)%Z -> number_at t c i (value n)) /\
        (forall c row', In c ["longitude"; "latitude"; "depth"; "magnitude"] -> dget row c = Some VNan -> In row' rows' -> Spec_Export.known (dget row' c) -> at_ (t_cols t) c i (EFloat NaN)) /\
        (forall x, time_known row x -> st_valid x ->
           ((forall row' y, In row' rows' -> time_known row' y -> st_valid y -> in_range (instant y)) -> at_ (t_cols t) "time" i (ETime (instant x))) /\
           (forall row' y, In row' rows' -> time_known row' y -> st_valid y -> ~ in_range (instant y) -> at_ (t_cols t) "time" i (ETime (whole_second x)))) /\
        (forall c s, In c ["magnitude_type"; "event_type"] -> dget row c = Some (Val s) -> ~ In s nothing -> at_ (t_cols t) c i (EText s)).
  Proof.
    intros Hcut Hso Hk Hg Hi Hf Ww Wag Wau Wi Wf Htime Hmag.
    destruct (C186_text_round_trip cut tf tm so iq int_text agencyID author columns fresh rows Hcut Hso Hg Hi Hf Ww Wag Wau Wi Wf) as (text & rows' & records & E & Hp & P1 & P2 & F).
    assert (Hes : exists es, Forall2 time_entry records es /\ Forall entry_ok es /\ Forall2 (fun row e => exists x, time_known row x /\ st_valid x /\ e = Text "T" x) rows' es).
    { assert (Hx : forall row, In row rows' -> exists x, time_known row x /\ st_valid x) by (intros row Hr; destruct (picked_in _ _ _ _ Hp Hr); auto).
      clear -F Hx. induction F as [|row r rows' records H F IH]; [exists []; repeat constructor|]. destruct IH as (es & A & B & C); [intros row' Hr; apply Hx; right; exact Hr|].
      destruct (Hx row (or_introl eq_refl)) as (x & X1 & X2). exists (Text "T" x :: es). split; [|split; [constructor; [split; [left; reflexivity|exact X2]|exact B]|constructor; [exists x; auto|exact C]]].
      constructor; [|exact A]. split; [reflexivity|]. pose proof (back_time _ _ _ _ _ H) as Q. rewrite X1 in Q. exact Q. }
    destruct Hes as (es & F1 & F2 & F3).
    assert (Hm : exists r : Spec_Table.record, In r records /\ In "magnitude" (map fst r)).
    { destruct Hmag as (row & R1 & R2 & (s & R3)). destruct (forall2_in _ _ _ _ F (picked_keeps _ _ _ _ Hp R1 R2)) as (r & S1 & S2). exists r. split; [exact S1|]. apply (says_In _ _ s). unfold says.
      pose proof (back_numbers _ _ _ _ _ S2 "magnitude" ltac:(cbn; tauto)) as Q. rewrite R3 in Q. exact Q. }
    destruct (C207_succeeds (T := xr) k records iu ii es Hk Hm F1 F2) as (k' & t & Ht & Hk').
    exists text, rows', k', t. split; [exact E|]. split; [exact Hp|]. split; [exact Hk'|].
    split. { intros files path Hfp. unfold Table_model.from_quakeml. rewrite Hfp, P1. cbn [make]. rewrite Ht. reflexivity. }
    split. { intros files Hfp. unfold Table_model.from_quakeml. rewrite Hfp, P2. cbn [make]. rewrite Ht. reflexivity. }
    assert (Len : List.length records = List.length rows') by (clear -F; induction F; cbn; congruence).
    split; [|split]. 1,2: destruct (C207_rows_and_columns _ _ _ _ _ _ Ht) as (R & R' & _); [destruct Hm as (r & R1 & R2); exists r; split; [exact R1|intros ->; exact R2]|]; rewrite <- Len; assumption.
    intros i row Hr. destruct (forall2_nth _ _ _ _ _ F Hr) as (r & Hr' & B).
    assert (N4 : forall c, In c ["longitude"; "latitude"; "depth"; "magnitude"] -> In c number_columns /\ In c number_names) by (intros c Hc; cbn in Hc |- *; intuition).
    split; [|split; [|split]].
    - intros c s n Hc Hs Sp D M X. destruct (N4 c Hc) as [C1 C2]. apply (C208_numbers L k records iu ii k' t c i r s n Ht C2 Hr'); auto. unfold says. rewrite (back_numbers _ _ _ _ _ B c C1), Hs. reflexivity.
    - intros c row' Hc Hs Hin (s' & Hs'). destruct (N4 c Hc) as [C1 C2]. apply (C208_no_numbers L k records iu ii k' t c i r Ht C2 Hr').
      + destruct (forall2_in _ _ _ _ F Hin) as (r' & R1 & R2). exists r'. split; [exact R1|]. apply (says_In _ _ s'). unfold says. rewrite (back_numbers _ _ _ _ _ R2 c C1), Hs'. reflexivity.
      + left. left. rewrite (back_numbers _ _ _ _ _ B c C1), Hs. reflexivity.
    - intros x Hx Vx. destruct (forall2_nth _ _ _ _ _ F3 Hr) as (e & He & (x' & X1 & X2 & ->)).
      destruct (C208_times k records iu ii k' t es i Ht F1 F2) as [G _]. destruct (G x' He) as [G1 G2].
      pose proof same_time as U.
      destruct (U x' x X2 Vx) as [U1 U2]. { unfold time_known in Hx, X1. rewrite Hx in X1. congruence. }
      rewrite <- U1, <- U2. split.
      + intros All. apply G1. clear -F3 All. induction F3 as [|row' e rows' es (y & Y1 & Y2 & ->) F3 IH]; constructor; [|apply IH; intros r' z Hz; apply All; right; exact Hz].
        intros ns [= <-]. apply (All row' y); [left; reflexivity|exact Y1|exact Y2].
      + intros row' y Hin Hy Vy Hout. apply G2. apply Exists_exists. destruct (forall2_in _ _ _ _ F3 Hin) as (e & E1 & (y' & Y1 & Y2 & ->)). exists (Text "T" y'). split; [exact E1|]. intros K. apply Hout.
        destruct (U y' y Y2 Vy) as [V1 _]. { unfold time_known in Hy, Y1. rewrite Hy in Y1. congruence. }
        rewrite <- V1. apply K. reflexivity.
    - intros c s Hc Hs Hn. assert (C : In c text_names) by exact Hc. destruct (C208_texts k records iu ii k' t c i r Ht C Hr') as [G _].
      assert (Sy : says r c s). { unfold says. destruct Hc as [<-|[<-|[]]]; [rewrite (back_type _ _ _ _ _ B)|rewrite (back_event_type _ _ _ _ _ B)]; rewrite Hs; reflexivity. }
      specialize (G s Sy). destruct (in_dec _ s nothing); [contradiction|exact G].
  Qed.
End RoundTrip.
Print Assumptions C213_round_trip.

(** ** C215: download *)
Section Get.
  Context {T : Type} {N : Num T} {D : Type} (strftime : D -> string).
  Variables (cut : list sax -> string -> list string) (tf : option string -> res Q) (tm : option string -> res Z) (so : list (option string) -> list (option string)).
  Lemma map_res_nth {A B} (f : A -> res B) l l' : map_res f l = Ok l' -> List.length l' = List.length l /\ forall i a, nth_error l i = Some a -> exists b, nth_error l' i = Some b /\ f a = Ok b.
  Proof.
    revert l'. induction l as [|x l IH]; cbn [map_res]; intros l' H; [injection H as <-; split; [reflexivity|intros [|i] a Q; discriminate]|].
    destruct (f x) as [b|] eqn:E; cbn [rbind] in H; [|discriminate]. destruct (map_res f l) as [m|]; cbn [rbind] in H; [|discriminate]. injection H as <-. destruct (IH m eq_refl) as [A1 A2].
    split; [cbn; congruence|]. intros [|i] a Q; [injection Q as <-; exists b; split; [reflexivity|exact E]|apply A2; exact Q].
  Qed.
  Lemma record_id iq e r : doc_ok (DEvent e) -> QuakeML_proofs.record tf tm so true iq (merge_event e) = Ok r ->
    dget r "eventID" = Some (field (event_fields strip (merge_event e)) "publicID").
  Proof.
    intros Hok H. assert (Hm : doc_ok (DEvent (merge_event e))) by (apply (merge_doc_ok (DEvent e)); exact Hok).
    apply (C100_origin tf tm so true iq (merge_event e) r Hm). rewrite parse_docs by exact Hm. cbn [events_of map_res]. rewrite H. reflexivity.
  Qed.
  Theorem C215_download server all a bs iu ii iq : fair_cut solid cut -> serves server all -> (1 <= bs)%Z ->
    dget (build_params strftime a) "limit" = None -> dget (build_params strftime a) "offset" = None ->
    let evs := all (without (build_params strftime a)) in
    let result := make (T := T) IsCatalog (answer_of (event_records tf tm so iq evs)) iu ii in
    (exists fuel0, forall fuel, (fuel0 < fuel)%nat ->
      (exists log, get_events strftime server cut tf tm so fuel iu ii iq (with_batch a (Some bs)) = Some (mkdated result (a_start a) (a_end a), log)) /\
      (exists log, get_events strftime server cut tf tm so fuel iu ii iq (with_batch a None) = Some (mkdated result (a_start a) (a_end a), log))) /\
    (forall k t, result = Made k t -> t_rows t = List.length evs /\
      forall i e id, ii = true -> nth_error evs i = Some e -> field (event_fields strip (merge_event e)) "publicID" = Some id -> at_ (t_cols t) "eventID" i (EText id)).
  Proof.
    intros Hf Hs Hbs Hl Ho evs result. split.
    - destruct (C193_download T N D strftime server all cut tf tm so iq a bs Hf Hs Hbs Hl Ho) as (fuel0 & H). exists fuel0. intros fuel Hfu. destruct (H fuel Hfu) as [(l1 & H1) (l2 & H2)].
      unfold get_events. rewrite H1, H2. split; eexists; reflexivity.
    - intros k t E.
      assert (Hok : Forall (fun e => doc_ok (DEvent e)) evs). { pose proof (page_ok server all Hs (build_params strftime a)) as P. unfold page_of in P. rewrite Hl, Ho in P. exact P. }
      unfold result in E. rewrite event_records_map in E by exact Hok. destruct (map_res _ evs) as [rs|] eqn:M; [|discriminate]. cbn [answer_of make] in E. destruct (map_res_nth _ _ _ M) as [Len Nth].
      destruct (table_from_dict IsCatalog rs iu ii) as [[k' t']|] eqn:F; [|discriminate]. injection E as -> ->.
      assert (Ids : forall i e, nth_error evs i = Some e -> exists r : Spec_Table.record, @nth_error pd rs i = Some r /\ dget r "eventID" = Some (field (event_fields strip (merge_event e)) "publicID")).
      { intros i e He. destruct (Nth i e He) as (r & R1 & R2). exists r. split; [exact R1|]. apply (record_id iq); [|exact R2]. rewrite Forall_forall in Hok. apply Hok. exact (nth_error_In _ _ He). }
      split.
      + destruct evs as [|e evs'] eqn:Ev.
        * assert (rs = []) as -> by (destruct rs; [reflexivity|discriminate]). destruct (@C207_no_records T N IsCatalog iu ii ltac:(discriminate)) as (k'' & Q & _). rewrite Q in F. injection F as <- <-. reflexivity.
        * rewrite <- Len. destruct (Ids 0%nat e eq_refl) as (r & R1 & R2). apply (C207_rows_and_columns _ _ _ _ _ _ F). exists r. split; [exact (nth_error_In _ _ R1)|intros ->; discriminate].
      + intros i e id -> He Hid. destruct (Ids i e He) as (r & R1 & R2). rewrite Hid in R2.
        refine (proj1 (C208_other_columns _ _ iu true _ _ "eventID" i r F _ _ _ R1) id R2).
        * cbn [number_names text_names app In]. intros K. repeat (destruct K as [K|K]; [discriminate|]). destruct K.
        * intros _ Q. apply Props_Catalog.matches_end_spec in Q. discriminate.
        * discriminate.
  Qed.
End Get.
Print Assumptions C215_download.
