(** * C60, C150 - C157: QuakeML export: round trip, what is lost, groups of a forecast *)
From Coq Require Import List Bool String Ascii Lia ZArith QArith Permutation Sorted.
From Verif Require Import Base Dict SortLib Utils_model QuakeML_model Spec_QuakeML QuakeML_proofs Props_QuakeML Props_QuakeML2 Props_QuakeML3 Spec_Export Export_model Export_proofs Props_Export.
Import ListNotations.
Open Scope string_scope.

(** ** C151: which events are exported *)
Definition row_complete (row : dict val) : Prop := known (dget row "latitude") /\ known (dget row "longitude") /\ known (dget row "time").
(** [picked P l l']: l' is l without the elements that do not satisfy P *)
Inductive picked {A} (P : A -> Prop) : list A -> list A -> Prop :=
| picked_nil : picked P [] []
| picked_keep x l l' : P x -> picked P l l' -> picked P (x :: l) (x :: l')
| picked_drop x l l' : ~ P x -> picked P l l' -> picked P (x :: l) l'.
Lemma notna_known v : notna v = true <-> known v.
Proof. unfold known. destruct v as [[| |s]|]; cbn; split; intros H; try discriminate; try (destruct H; discriminate); [exists s|]; reflexivity. Qed.
Lemma complete_ok row : complete row = true <-> row_complete row.
Proof. unfold complete, row_complete. rewrite !andb_true_iff, !notna_known. tauto. Qed.
Lemma filter_picked {A} (f : A -> bool) (P : A -> Prop) l : (forall x, f x = true <-> P x) -> picked P l (filter f l).
Proof. intros H. induction l as [|x l IH]; [constructor|]. cbn. destruct (f x) eqn:E; constructor; auto; [apply H; exact E|rewrite <- H, E; discriminate]. Qed.
Lemma filter_combine (rows : list (dict val)) (f : dict val -> bool) : forall n, map snd (filter (fun p => f (snd p)) (combine (seq n (List.length rows)) rows)) = filter f rows.
Proof. induction rows as [|r rows IH]; intros n; [reflexivity|]. cbn. destruct (f r); cbn; rewrite IH; reflexivity. Qed.

Section Catalogue.
  Variable int_text : string -> string.
  Variables agencyID author : string.
  Variable columns : list string.
  Variable fresh : nat -> string -> string.
  Variable rows : list (dict val).
  Lemma docs_eq docs : to_quakeml int_text agencyID author columns fresh rows = Ok docs ->
    docs_events docs = map (fun p => export_event int_text agencyID author columns (fresh (fst p)) (snd p)) (filter (fun p => complete (snd p)) (combine (seq 0 (List.length rows)) rows)).
  Proof.
    unfold to_quakeml. destruct (check_required_cols _ _); [|discriminate]. intros H. injection H as <-. unfold docs_events. cbn [flat_map events_of]. rewrite !app_nil_r. generalize (filter (fun p => complete (snd p)) (combine (seq 0 (List.length rows)) rows)).
    intros l. induction l as [|x l IH]; [reflexivity|]. cbn [map flat_map events_of app]. rewrite IH. reflexivity.
  Qed.
End Catalogue.

Theorem C151_exported_events : forall int_text agencyID author columns fresh rows,
  ((exists c, In c ["longitude"; "latitude"; "depth"; "time"; "magnitude"; "magnitude_type"] /\ ~ In c columns) ->
     to_quakeml int_text agencyID author columns fresh rows = Err AttributeError) /\
  (incl ["longitude"; "latitude"; "depth"; "time"; "magnitude"; "magnitude_type"] columns -> exists docs rows',
     to_quakeml int_text agencyID author columns fresh rows = Ok docs /\ picked row_complete rows rows' /\
     Forall2 (fun row e => In "eventID" columns -> forall i, dget row "eventID" = Some (Val i) -> attr (ev_attrs e) "publicID" = Some i) rows' (docs_events docs)).
Proof.
  intros int_text agencyID author columns fresh rows. split.
  - intros (c & Hc & Hn). unfold to_quakeml. destruct (check_required_cols columns catalog_columns) eqn:E; [|reflexivity]. exfalso. apply Hn. unfold check_required_cols in E. rewrite forallb_forall in E. apply mem_iff. apply E. exact Hc.
  - intros Hi. unfold to_quakeml at 1. assert (check_required_cols columns catalog_columns = true) as E by (unfold check_required_cols; apply forallb_forall; intros c Hc; apply mem_iff, Hi, Hc).
    rewrite E. eexists. exists (filter complete rows). split; [reflexivity|]. split; [apply filter_picked; apply complete_ok|].
    rewrite (docs_eq int_text agencyID author columns fresh rows) by (unfold to_quakeml; rewrite E; reflexivity). rewrite <- (filter_combine rows complete 0).
    generalize (filter (fun p => complete (snd p)) (combine (seq 0 (List.length rows)) rows)). intros l. induction l as [|[n row] l IH]; [constructor|]. cbn [map]. constructor; [|exact IH].
    cbn [fst snd]. intros Hin i Hd. unfold export_event. cbn [ev_attrs attr]. unfold id_of_row. rewrite (proj2 (mem_iff _ _) Hin), Hd. reflexivity.
Qed.
Print Assumptions C151_exported_events.

(** ** C150: the round trip *)
(** the table: every row has a cell in every column; texts are neither empty nor surrounded by white
    space; magnitude types are ordinary names; secondary columns are magnitude_<type> with one of
    the endings for an ordinary type *)
Definition good_table (columns : list string) (rows : list (dict val)) : Prop :=
  incl ["longitude"; "latitude"; "depth"; "time"; "magnitude"; "magnitude_type"] columns /\ regular columns /\ Forall (good_row columns) rows.
Theorem C150_round_trip : forall tf tm so iq int_text agencyID author columns fresh rows, arranges so ->
  good_table columns rows -> (forall s, presentable (int_text s)) -> (forall i c, presentable (fresh i c)) ->
  exists docs rows' records, to_quakeml int_text agencyID author columns fresh rows = Ok docs /\ picked row_complete rows rows' /\
    parse_quakeml tf tm so true iq (flat_map ser_doc docs) = Ok records /\ Forall2 (comes_back int_text iq columns) rows' records.
Proof.
  intros tf tm so iq int_text agencyID author columns fresh rows Hso (Hi & Hreg & Hrows) Hint Hfresh.
  destruct (C151_exported_events int_text agencyID author columns fresh rows) as [_ H]. destruct (H Hi) as (docs & rows' & Ed & Hp & _). clear H. exists docs, (filter complete rows).
  assert (Hev := docs_eq int_text agencyID author columns fresh rows docs Ed).
  set (L := filter (fun p => complete (snd p)) (combine (seq 0 (List.length rows)) rows)) in *.
  assert (HL : forall p, In p L -> good_row columns (snd p)).
  { intros p Hin. assert (In (snd p) (filter complete rows)) as Hin' by (rewrite <- (filter_combine rows complete 0); apply in_map; exact Hin). apply filter_In in Hin'. rewrite Forall_forall in Hrows. apply Hrows. tauto. }
  assert (Htype : In "magnitude_type" columns) by (apply Hi; cbn; tauto).
  destruct (C54_one_record_per_event tf tm so true iq) as (record & Hrec).
  assert (Hone : forall p, In p L -> exists r, record (export_event int_text agencyID author columns (fresh (fst p)) (snd p)) = Ok r /\ comes_back int_text iq columns (snd p) r).
  { intros p Hin. destruct (event_parses int_text agencyID author columns (fresh (fst p)) (snd p) Hint (Hfresh (fst p)) (HL p Hin) Hreg Htype tf tm so iq) as (r & Er).
    exists r. assert (Hok := event_ok int_text agencyID author columns (fresh (fst p)) (snd p)). set (e := export_event int_text agencyID author columns (fresh (fst p)) (snd p)) in *.
    assert (K := Hrec [DEvent e] (Forall_cons (DEvent e) Hok (Forall_nil _))). cbn [flat_map docs_events events_of app map_res] in K. rewrite app_nil_r, Er in K. cbn [map_res] in K. destruct (record e) as [r'|]; cbn [rbind] in K; [|discriminate]. injection K as ->.
    split; [reflexivity|]. exact (event_back int_text agencyID author columns (fresh (fst p)) (snd p) Hint (Hfresh (fst p)) (HL p Hin) Hreg Htype tf tm so iq Hso r' Er). }
  assert (Hall : exists records, map_res record (docs_events docs) = Ok records /\ Forall2 (comes_back int_text iq columns) (filter complete rows) records).
  { rewrite Hev, <- (filter_combine rows complete 0). fold L. clear -Hone. induction L as [|p L IH]; [exists []; split; [reflexivity|constructor]|]. destruct (Hone p (or_introl eq_refl)) as (r & Er & Cr). destruct IH as (rs & Ers & Crs); [intros; apply Hone; right; assumption|].
    exists (r :: rs). cbn [map map_res]. rewrite Er. cbn [rbind]. rewrite Ers. split; [reflexivity|]. constructor; assumption. }
  destruct Hall as (records & Er & Cr). exists records. split; [exact Ed|]. split; [apply filter_picked; apply complete_ok|]. split; [|exact Cr]. rewrite Hrec; [exact Er|].
  unfold to_quakeml in Ed. destruct (check_required_cols _ _); [|discriminate]. injection Ed as <-. apply Forall_cons; [|apply Forall_nil]. cbn [doc_ok fold_right]. split; [reflexivity|]. split; [|exact I]. split; [reflexivity|].
  fold L. clear. induction L as [|p L IH]; [exact I|]. cbn [map fold_right doc_ok]. split; [apply event_ok|exact IH].
Qed.
Print Assumptions C150_round_trip.

(** ** C60: secondary magnitudes whose name contains the preferred type *)
(** the records read back after an export, with the rows they come from *)
Definition records_of tf tm so iq int_text agencyID author columns fresh rows (P : dict val -> pd -> Prop) : Prop :=
  exists docs rows' records, to_quakeml int_text agencyID author columns fresh rows = Ok docs /\ picked row_complete rows rows' /\
    parse_quakeml tf tm so true iq (flat_map ser_doc docs) = Ok records /\ Forall2 P rows' records.
Lemma records_impl tf tm so iq int_text agencyID author columns fresh rows (P : dict val -> pd -> Prop) : arranges so ->
  good_table columns rows -> (forall s, presentable (int_text s)) -> (forall i c, presentable (fresh i c)) ->
  (forall row r, In row rows -> comes_back int_text iq columns row r -> P row r) -> records_of tf tm so iq int_text agencyID author columns fresh rows P.
Proof.
  intros Hso Hg Hi Hf HP. destruct (C150_round_trip tf tm so iq int_text agencyID author columns fresh rows Hso Hg Hi Hf) as (docs & rows' & records & E1 & E2 & E3 & F). exists docs, rows', records. repeat (split; [assumption|]).
  assert (Hin : forall row, In row rows' -> In row rows) by (clear -E2; induction E2; intros y Hy; [destruct Hy|destruct Hy as [<-|Hy]; [left; reflexivity|right; auto]|right; auto]).
  clear -HP F Hin. induction F as [|row r l l' H _ IH]; constructor; [apply HP; [apply Hin; left; reflexivity|exact H]|apply IH; intros; apply Hin; right; assumption].
Qed.
(** C157, kept: the type of the row does not occur in the name of the column *)
Theorem C157_secondary_kept : forall tf tm so iq int_text agencyID author columns fresh rows, arranges so ->
  good_table columns rows -> (forall s, presentable (int_text s)) -> (forall i c, presentable (fresh i c)) ->
  records_of tf tm so iq int_text agencyID author columns fresh rows (fun row r => forall T t v, ordinary T -> secondary_column ("magnitude_" ++ T) ->
    dget row ("magnitude_" ++ T) = Some (Val v) -> dget row "magnitude_type" = Some (Val t) -> ~ occurs t ("magnitude_" ++ T) -> dget r ("magnitude_" ++ T) = Some (Some v)).
Proof.
  intros tf tm so iq int_text agencyID author columns fresh rows Hso Hg Hi Hf. apply records_impl; try assumption. intros row r Hrow B T t v HT Hs Hv Ht Ho.
  destruct Hg as (_ & _ & Hg). rewrite Forall_forall in Hg. destruct (Hg row Hrow) as (Hc & _).
  assert (Hne : written (dget row "magnitude_type") <> Some T) by (rewrite Ht; cbn; intros [= ->]; apply Ho; exists "magnitude_", ""; rewrite app_nil_s; reflexivity).
  destruct (back_secondary _ _ _ _ _ B T "" HT Hne (or_introl eq_refl)) as [K _]. rewrite app_nil_s, Hv in K. apply K.
  split; [apply Hc; rewrite Hv; discriminate|]. split; [exact Hs|]. split; [exists v; exact Hv|]. exists t. auto.
Qed.
Print Assumptions C157_secondary_kept.
(** lost: it occurs there, and is not the type of the column itself *)
Theorem C60_lost_refuted : forall tf tm so iq int_text agencyID author columns fresh rows, arranges so ->
  good_table columns rows -> (forall s, presentable (int_text s)) -> (forall i c, presentable (fresh i c)) ->
  records_of tf tm so iq int_text agencyID author columns fresh rows (fun row r => forall T t, ordinary T -> T <> t ->
    dget row "magnitude_type" = Some (Val t) -> occurs t ("magnitude_" ++ T) -> dget r ("magnitude_" ++ T) = None).
Proof.
  intros tf tm so iq int_text agencyID author columns fresh rows Hso Hg Hi Hf. apply records_impl; try assumption. intros row r Hrow B T t HT Hne Ht Ho.
  assert (Hne' : written (dget row "magnitude_type") <> Some T) by (rewrite Ht; cbn; congruence).
  destruct (back_secondary _ _ _ _ _ B T "" HT Hne' (or_introl eq_refl)) as [_ K]. rewrite app_nil_s in K. apply K. intros (_ & _ & _ & t' & E & N). rewrite Ht in E. injection E as <-. contradiction.
Qed.
Print Assumptions C60_lost_refuted.
(** a row without magnitude type loses all of them *)
Theorem C60_no_type_refuted : forall tf tm so iq int_text agencyID author columns fresh rows, arranges so ->
  good_table columns rows -> (forall s, presentable (int_text s)) -> (forall i c, presentable (fresh i c)) ->
  records_of tf tm so iq int_text agencyID author columns fresh rows (fun row r => forall T, ordinary T -> T <> "nan" -> T <> "None" ->
    ~ known (dget row "magnitude_type") -> dget r ("magnitude_" ++ T) = None).
Proof.
  intros tf tm so iq int_text agencyID author columns fresh rows Hso Hg Hi Hf. apply records_impl; try assumption. intros row r Hrow B T HT N1 N2 Hk.
  assert (Hne' : written (dget row "magnitude_type") <> Some T) by (destruct (dget row "magnitude_type") as [[| |s]|]; cbn; try congruence; exfalso; apply Hk; exists s; reflexivity).
  destruct (back_secondary _ _ _ _ _ B T "" HT Hne' (or_introl eq_refl)) as [_ K]. rewrite app_nil_s in K. apply K. intros (_ & _ & _ & t' & E & N). apply Hk. exists t'. exact E.
Qed.
Print Assumptions C60_no_type_refuted.

(** ** C153: missing cells come back as text *)
Theorem C153_missing_mode_refuted : forall tf tm so iq int_text agencyID author columns fresh rows, arranges so ->
  good_table columns rows -> (forall s, presentable (int_text s)) -> (forall i c, presentable (fresh i c)) ->
  records_of tf tm so iq int_text agencyID author columns fresh rows (fun row r => dget row "evaluationmode" = Some VNan -> dget r "evaluationmode" = Some (Some "nan")).
Proof.
  intros tf tm so iq int_text agencyID author columns fresh rows Hso Hg Hi Hf. apply records_impl; try assumption. intros row r Hrow B H. rewrite (back_mode _ _ _ _ _ B), H. reflexivity.
Qed.
Print Assumptions C153_missing_mode_refuted.
(** ... and a missing magnitude type adds a column magnitude_nan or magnitude_None *)
Theorem C153_missing_type_refuted : forall tf tm so iq int_text agencyID author columns fresh rows, arranges so ->
  good_table columns rows -> (forall s, presentable (int_text s)) -> (forall i c, presentable (fresh i c)) ->
  records_of tf tm so iq int_text agencyID author columns fresh rows (fun row r => forall m, dget row "magnitude" = Some (Val m) ->
    (dget row "magnitude_type" = Some VNan -> dget r "magnitude_nan" = Some (Some m)) /\ (dget row "magnitude_type" = Some VNone -> dget r "magnitude_None" = Some (Some m))).
Proof.
  intros tf tm so iq int_text agencyID author columns fresh rows Hso Hg Hi Hf. apply records_impl; try assumption. intros row r Hrow B m Hm. split; intros H.
  - change "magnitude_nan" with ("magnitude_" ++ "nan" ++ ""). rewrite (back_own _ _ _ _ _ B "nan" "") by (rewrite ?H; cbn; auto). cbn [append]. rewrite (back_numbers _ _ _ _ _ B "magnitude") by (cbn; tauto). rewrite Hm. reflexivity.
  - change "magnitude_None" with ("magnitude_" ++ "None" ++ ""). rewrite (back_own _ _ _ _ _ B "None" "") by (rewrite ?H; cbn; auto). cbn [append]. rewrite (back_numbers _ _ _ _ _ B "magnitude") by (cbn; tauto). rewrite Hm. reflexivity.
Qed.
Print Assumptions C153_missing_type_refuted.

(** ** C154: asymmetric uncertainties and the uncertainty of the time are not exported *)
Theorem C154_uncertainties_lost_refuted : forall tf tm so iq int_text agencyID author columns fresh rows, arranges so ->
  good_table columns rows -> (forall s, presentable (int_text s)) -> (forall i c, presentable (fresh i c)) ->
  records_of tf tm so iq int_text agencyID author columns fresh rows (fun _ r =>
    (forall v e, In v ["time"; "longitude"; "latitude"; "depth"; "magnitude"] -> In e ["_lowerUncertainty"; "_upperUncertainty"; "_confidenceLevel"] -> dget r (v ++ e) = None) /\ dget r "time_uncertainty" = None).
Proof.
  intros tf tm so iq int_text agencyID author columns fresh rows Hso Hg Hi Hf. apply records_impl; try assumption. intros row r Hrow B. split; [apply (back_lost _ _ _ _ _ B)|apply (back_lost_time _ _ _ _ _ B)].
Qed.
Print Assumptions C154_uncertainties_lost_refuted.

(** ** C155: ids missing in some rows only are not created *)
Theorem C155_missing_ids_refuted : forall tf tm so iq int_text agencyID author columns fresh rows, arranges so ->
  good_table columns rows -> (forall s, presentable (int_text s)) -> (forall i c, presentable (fresh i c)) ->
  records_of tf tm so iq int_text agencyID author columns fresh rows (fun row r => forall c, In c ["eventID"; "originID"; "magnitudeID"] ->
    dget row c = Some VNan -> dget r c = Some (Some "nan")).
Proof.
  intros tf tm so iq int_text agencyID author columns fresh rows Hso Hg Hi Hf. apply records_impl; try assumption. intros row r Hrow B c Hc H.
  destruct (back_ids _ _ _ _ _ B c Hc) as [K _]. rewrite K, H; [reflexivity|]. destruct Hg as (_ & _ & Hg). rewrite Forall_forall in Hg. apply (Hg row Hrow). rewrite H. discriminate.
Qed.
Print Assumptions C155_missing_ids_refuted.

(** ** A table *)
Definition sample_columns := ["longitude"; "latitude"; "depth"; "time"; "magnitude"; "magnitude_type"; "magnitude_uncertainty"; "magnitude_MLhc"; "magnitude_Mw"; "magnitude_Mw_uncertainty"; "usedphasecount"; "event_type"; "evaluationmode"].
Definition sample_row (ty : val) (lat : val) (mw : val) : dict val :=
  [("longitude", Val "8.5"); ("latitude", lat); ("depth", VNan); ("time", Val "2020-01-01T00:00:00.000000Z"); ("magnitude", Val "2.1"); ("magnitude_type", ty); ("magnitude_uncertainty", Val "0.1");
   ("magnitude_MLhc", Val "2.2"); ("magnitude_Mw", mw); ("magnitude_Mw_uncertainty", Val "0.3"); ("usedphasecount", Val "7.0"); ("event_type", VNone); ("evaluationmode", VNan)].
Definition sample_rows := [sample_row (Val "ML") (Val "47.1") (Val "2.4"); sample_row (Val "ML") VNan (Val "2.4"); sample_row (Val "mb") (Val "46.9") VNan; sample_row VNone (Val "46.8") (Val "1.9")].
Lemma sample_regular : regular sample_columns.
Proof.
  intros c Hc Hs. assert (O : forall T, In T ["MLhc"; "Mw"] -> ordinary T /\ strip T = T).
  { intros T HT. cbn in HT. destruct HT as [<-|[<-|[]]]; (split; [|reflexivity]); (split; [discriminate|]); (split; [cbn; repeat split; discriminate|]); (split; [cbn; intuition discriminate|]); intros e He S; apply prefix_starts in S; cbn in He; repeat destruct He as [<-|He]; try discriminate; destruct He. }
  assert (In c (secondary_keys sample_columns)) as Hin by (apply secondary_keys_ok; auto). vm_compute in Hin. repeat destruct Hin as [<-|Hin]; [| | |destruct Hin].
  - exists "MLhc", "". split; [apply O; cbn; tauto|]. split; [cbn; tauto|reflexivity].
  - exists "Mw", "". split; [apply O; cbn; tauto|]. split; [cbn; tauto|reflexivity].
  - exists "Mw", "_uncertainty". split; [apply O; cbn; tauto|]. split; [cbn; tauto|reflexivity].
Qed.
Lemma dget_some_in {V} (d : dict V) k v : dget d k = Some v -> In (k, v) d.
Proof. induction d as [|[a b] d IH]; cbn; [discriminate|]. destruct (String.eqb_spec k a) as [->|]; [intros [= ->]; left; reflexivity|right; auto]. Qed.
Lemma dget_none {V} (d : dict V) k : dget d k <> None <-> In k (map fst d).
Proof. induction d as [|[a b] d IH]; cbn; [tauto|]. destruct (String.eqb_spec k a) as [->|N]; [split; [auto|discriminate]|]. rewrite IH. split; [auto|intros [E|H]; [congruence|exact H]]. Qed.
Example sample_good : good_table sample_columns sample_rows.
Proof.
  split; [intros c Hc; cbn in *; tauto|]. split; [exact sample_regular|]. unfold sample_rows.
  assert (K : forall ty lat mw, (forall s, ty = Val s -> presentable s /\ tidy s) -> (forall s, lat = Val s -> presentable s) -> (forall s, mw = Val s -> presentable s) -> good_row sample_columns (sample_row ty lat mw)).
  { intros ty lat mw H1 H2 H3. split; [intros c; rewrite dget_none; reflexivity|]. split.
    - intros c s H. apply dget_some_in in H. cbn in H. repeat destruct H as [H|H]; try discriminate H; try (injection H as <- <-; split; [discriminate|reflexivity]); try (injection H as _ H; solve [apply H2; exact H|apply H3; exact H|apply H1; exact H]); destruct H.
    - intros t H. cbn in H. injection H as H. apply H1. exact H. }
  repeat apply Forall_cons; try apply Forall_nil; apply K; intros s H; try discriminate H; injection H as <-; repeat split; try discriminate; cbn; intuition discriminate.
Qed.
Definition sample_fresh (i : nat) (c : string) : string := c ++ String (ascii_of_nat (48 + i)) "".
(** the second row has no latitude; the first loses MLhc, the last loses both *)
Example sample_round_trip : forall tf tm, exists docs r1 r3 r4, to_quakeml (fun s => substring 0 1 s) " " " " sample_columns sample_fresh sample_rows = Ok docs /\
  parse_quakeml tf tm (fun l => l) true true (flat_map ser_doc docs) = Ok [r1; r3; r4] /\
  (dget r1 "magnitude" = Some (Some "2.1") /\ dget r1 "magnitude_Mw" = Some (Some "2.4") /\ dget r1 "magnitude_Mw_uncertainty" = Some (Some "0.3") /\ dget r1 "magnitude_MLhc" = None /\ dget r1 "usedphasecount" = Some (Some "7") /\ dget r1 "eventID" = Some (Some "eventID0")) /\
  (dget r3 "magnitude_MLhc" = Some (Some "2.2") /\ dget r3 "magnitude_Mw" = None /\ dget r3 "magnitude_Mw_uncertainty" = Some (Some "0.3") /\ dget r3 "event_type" = Some (Some "None")) /\
  (dget r4 "magnitude_Mw" = None /\ dget r4 "magnitude_None" = Some (Some "2.1")).
Proof. intros. do 4 eexists. split; [vm_compute; reflexivity|]. split; [vm_compute; reflexivity|]. repeat split. Qed.

(** ** C152: new ids of secondary magnitudes are not exported *)
Theorem C152_secondary_ids_refuted : forall tf tm, exists docs r1 r3 r4, to_quakeml (fun s => substring 0 1 s) " " " " sample_columns sample_fresh sample_rows = Ok docs /\
  parse_quakeml tf tm (fun l => l) true true (flat_map ser_doc docs) = Ok [r1; r3; r4] /\
  dget r1 "magnitude_Mw" = Some (Some "2.4") /\ dget r1 "magnitude_Mw_magnitudeID" = Some (Some "") /\ dget r1 "magnitudeID" = Some (Some "magnitudeID0").
Proof. intros. do 4 eexists. split; [vm_compute; reflexivity|]. split; [vm_compute; reflexivity|]. repeat split. Qed.
Print Assumptions C152_secondary_ids_refuted.

(** In general: a secondary magnitude that is exported from a catalogue without a column for its
    id comes back with the empty id, whatever new ids are drawn. *)
Theorem C152_always_refuted : forall tf tm so iq int_text agencyID author columns fresh rows, arranges so ->
  good_table columns rows -> (forall s, presentable (int_text s)) -> (forall i c, presentable (fresh i c)) ->
  records_of tf tm so iq int_text agencyID author columns fresh rows (fun row r => forall T t v, ordinary T -> secondary_column ("magnitude_" ++ T) ->
    dget row ("magnitude_" ++ T) = Some (Val v) -> dget row "magnitude_type" = Some (Val t) -> ~ occurs t ("magnitude_" ++ T) ->
    ~ In ("magnitude_" ++ T ++ "_magnitudeID") columns -> dget r ("magnitude_" ++ T ++ "_magnitudeID") = Some (Some "")).
Proof.
  intros tf tm so iq int_text agencyID author columns fresh rows Hso Hg Hi Hf. apply records_impl; try assumption. intros row r Hrow B T t v HT Hs Hv Ht Ho Hno.
  destruct Hg as (_ & _ & Hg). rewrite Forall_forall in Hg. destruct (Hg row Hrow) as (Hc & _).
  assert (Hne : written (dget row "magnitude_type") <> Some T) by (rewrite Ht; cbn; intros [= ->]; apply Ho; exists "magnitude_", ""; rewrite app_nil_s; reflexivity).
  destruct (back_secondary_ids _ _ _ _ _ B T HT Hne) as (_ & K & _). apply K.
  - intros (Hin & _). exact (Hno Hin).
  - exists "". split; [left; reflexivity|]. rewrite app_nil_s. split; [apply Hc; rewrite Hv; discriminate|]. split; [exact Hs|]. split; [exists v; exact Hv|]. exists t. auto.
Qed.
Print Assumptions C152_always_refuted.
(** with the column, the ids come back *)
Theorem C150_secondary_ids : forall tf tm so iq int_text agencyID author columns fresh rows, arranges so ->
  good_table columns rows -> (forall s, presentable (int_text s)) -> (forall i c, presentable (fresh i c)) ->
  records_of tf tm so iq int_text agencyID author columns fresh rows (fun row r => forall T t i, ordinary T -> secondary_column ("magnitude_" ++ T ++ "_magnitudeID") ->
    dget row ("magnitude_" ++ T ++ "_magnitudeID") = Some (Val i) -> dget row "magnitude_type" = Some (Val t) -> ~ occurs t ("magnitude_" ++ T ++ "_magnitudeID") ->
    dget r ("magnitude_" ++ T ++ "_magnitudeID") = Some (Some i)).
Proof.
  intros tf tm so iq int_text agencyID author columns fresh rows Hso Hg Hi Hf. apply records_impl; try assumption. intros row r Hrow B T t i HT Hs Hv Ht Ho.
  destruct Hg as (_ & _ & Hg). rewrite Forall_forall in Hg. destruct (Hg row Hrow) as (Hc & _).
  assert (Hne : written (dget row "magnitude_type") <> Some T) by (rewrite Ht; cbn; intros [= ->]; apply Ho; exists "magnitude_", "_magnitudeID"; reflexivity).
  destruct (back_secondary_ids _ _ _ _ _ B T HT Hne) as (K & _ & _). rewrite K; [rewrite Hv; reflexivity|].
  split; [apply Hc; rewrite Hv; discriminate|]. split; [exact Hs|]. split; [exists i; exact Hv|]. exists t. auto.
Qed.
Print Assumptions C150_secondary_ids.

(** ** C156: one document per realization *)
(** the rows of realization i, in order *)
Fixpoint rows_of (i : Z) (ids : list (option Z)) (rows : list (dict val)) : list (dict val) :=
  match ids, rows with
  | Some j :: ids, row :: rows => if Z.eq_dec i j then row :: rows_of i ids rows else rows_of i ids rows
  | None :: ids, _ :: rows => rows_of i ids rows
  | _, _ => []
  end.
Theorem C156_forecast_documents : forall int_text agencyID author columns fresh ids rows,
  incl ["longitude"; "latitude"; "depth"; "time"; "magnitude"; "magnitude_type"; "catalog_id"] columns ->
  exists keys docs, forecast_to_quakeml int_text agencyID author columns fresh ids rows = Ok docs /\
    StronglySorted Z.lt keys /\ (forall i, In i keys <-> In (Some i) ids) /\
    Forall2 (fun i d => to_quakeml int_text agencyID author columns (fresh i) (rows_of i ids rows) = Ok d) keys docs.
Proof.
  intros int_text agencyID author columns fresh ids rows Hi. exists (group_keys ids).
  assert (C1 : check_required_cols columns (app catalog_columns ["catalog_id"]) = true) by (unfold check_required_cols; apply forallb_forall; intros c Hc; apply mem_iff, Hi; exact Hc).
  assert (C2 : check_required_cols columns catalog_columns = true) by (unfold check_required_cols; apply forallb_forall; intros c Hc; apply mem_iff, Hi; cbn in Hc |- *; tauto).
  assert (Hg : forall i ids rows, group ids rows i = rows_of i ids rows).
  { intros i. unfold group. induction ids0 as [|[j|] ids0 IH]; intros [|row rows0]; cbn [combine filter map rows_of]; try reflexivity.
    - cbn [fst]. destruct (Z.eq_dec i j) as [->|N]; [rewrite Z.eqb_refl; cbn [map snd]; rewrite IH; reflexivity|]. rewrite (proj2 (Z.eqb_neq i j) N). apply IH.
    - apply IH. }
  unfold forecast_to_quakeml. rewrite C1.
  assert (K : forall keys, exists docs, each (fun i => to_quakeml int_text agencyID author columns (fresh i) (group ids rows i)) keys = Ok docs /\
    Forall2 (fun i d => to_quakeml int_text agencyID author columns (fresh i) (rows_of i ids rows) = Ok d) keys docs).
  { induction keys as [|i keys (docs & E & F)]; [exists []; split; [reflexivity|constructor]|].
    destruct (to_quakeml int_text agencyID author columns (fresh i) (group ids rows i)) as [d|] eqn:D; [|unfold to_quakeml in D; rewrite C2 in D; discriminate].
    exists (d :: docs). cbn [each]. rewrite D. cbn [rbind]. rewrite E. split; [reflexivity|]. constructor; [rewrite <- Hg; exact D|exact F]. }
  destruct (K (group_keys ids)) as (docs & E & F). exists docs. split; [exact E|]. unfold group_keys in *. set (l := nodup Z.eq_dec _) in *.
  assert (Hin : forall i, In i (isort Z.leb l) <-> In (Some i) ids).
  { intros i. assert (In i (isort Z.leb l) <-> In i l) as -> by (split; apply Permutation_in; [apply Permutation_sym|]; apply isort_perm). unfold l. rewrite nodup_In, in_flat_map. split.
    - intros ([j|] & Hj & Hi'); [destruct Hi' as [<-|[]]; exact Hj|destruct Hi'].
    - intros H. exists (Some i). split; [exact H|left; reflexivity]. }
  split; [|split; [exact Hin|exact F]].
  assert (ND : NoDup (isort Z.leb l)) by (eapply Permutation_NoDup; [apply isort_perm|apply NoDup_nodup]).
  assert (SS : StronglySorted (leP Z.leb) (isort Z.leb l)).
  { apply isort_sorted; unfold leP.
    - intros x y. destruct (Z.leb_spec x y); [left; reflexivity|right; apply Z.leb_le; lia].
    - intros x y z H1 H2. apply Z.leb_le in H1, H2. apply Z.leb_le. lia. }
  clear -ND SS. induction SS as [|x l' _ IH H]; constructor; inversion_clear ND as [|? ? N1 N2]; [auto|]. apply Forall_forall. intros y Hy. rewrite Forall_forall in H. specialize (H y Hy). unfold leP in H. apply Z.leb_le in H.
  assert (x <> y) by (intros ->; contradiction). lia.
Qed.
Print Assumptions C156_forecast_documents.
Example forecast_case : exists d1 d2, forecast_to_quakeml (fun s => s) " " " " (app sample_columns ["catalog_id"]) (fun _ => sample_fresh) [Some 3%Z; None; Some 1%Z; Some 3%Z] sample_rows = Ok [d1; d2] /\
  List.length (docs_events d1) = 1%nat /\ List.length (docs_events d2) = 2%nat.
Proof. do 2 eexists. split; [vm_compute; reflexivity|]. split; reflexivity. Qed.
