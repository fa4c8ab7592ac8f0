(** * C186, C187: exporting to text and reading it back *)
From Coq Require Import List Bool String Ascii Arith Lia ZArith QArith.
From Verif Require Import Base Dict Utils_model QuakeML_model Spec_QuakeML QuakeML_proofs Props_QuakeML Props_QuakeML2 Props_QuakeML3 Spec_Export Export_model Export_proofs Props_Export Props_Export2 Spec_Xml Xml_model Xml_proofs Recut_proofs Xml_cut Props_Xml Props_Xml2 ExportText_model ExportText_proofs.
Import ListNotations.
Open Scope string_scope.

(** nothing in the table needs escaping *)
Definition writable_table (columns : list string) (rows : list (dict val)) : Prop :=
  (forall c, In c columns -> writable c) /\ Forall (fun row => forall c s, dget row c = Some (Val s) -> writable s) rows.

Lemma declaration_heading : heading xml_declaration.
Proof.
  right. exists ("xml version=" ++ String quote ("1.0" ++ String quote (" encoding=" ++ String quote ("UTF-8" ++ String quote "")))), newline. split; [reflexivity|]. split; [reflexivity|]. unfold xml_declaration. reflexivity.
Qed.
Definition chosen (rows : list (dict val)) := filter (fun p => complete (snd p)) (combine (seq 0 (List.length rows)) rows).
Section Table.
  Variable int_text : string -> string.
  Variables agencyID author : string.
  Variable columns : list string.
  Variable fresh : nat -> string -> string.
  Hypothesis Hag : writable agencyID.
  Hypothesis Hau : writable author.
  Hypothesis Hint : forall s, writable (int_text s).
  Hypothesis Hfresh : forall i c, writable (fresh i c).
  Hypothesis Hcols : forall c, In c columns -> writable c.
  Definition lines (p : nat * dict val) := event_lines int_text agencyID author columns (fresh (fst p)) (snd p).
  Definition pairs (L : list (nat * dict val)) : list doc := flat_map (fun e => [DEvent e; event_gap]) (map lines L).
  Lemma gap_safe : safe (plain_of_doc event_gap).
  Proof. apply ws_safe. reflexivity. Qed.
  Lemma pairs_safe L : Forall (fun p => cells_writable (dget (snd p))) L -> Forall safe (map plain_of_doc (pairs L)).
  Proof.
    induction 1 as [|p L Hp _ IH]; [constructor|]. unfold pairs. cbn [map flat_map app plain_of_doc]. constructor; [|constructor; [apply gap_safe|exact IH]].
    apply event_safe; auto.
  Qed.
  Lemma pairs_apart L : apart (map plain_of_doc (pairs L)) /\ apart (plain_of_doc event_gap :: map plain_of_doc (pairs L)).
  Proof.
    induction L as [|p L [IH1 IH2]]; [cbn; auto|]. unfold pairs. cbn [map flat_map app]. fold (pairs L).
    assert (H : apart (plain_of_doc (DEvent (lines p)) :: plain_of_doc event_gap :: map plain_of_doc (pairs L))) by (split; [discriminate|exact IH2]). split; [exact H|]. split; [reflexivity|exact H].
  Qed.
  Lemma lines_ok p : Forall child_ok (ev_children (lines p)).
  Proof.
    unfold lines. cbn [event_lines ev_children]. assert (R : forall l, forallb (fun t => negb (reserved (fst t))) l = true -> forall (f : string -> option val), fold_right (fun c r => plain_ok c /\ r) True (flat_map (fun tc => opt_leaf (fst tc) (f (snd tc))) l)).
    { induction l as [|[t c] l IH]; intros H f; [exact I|]. cbn [forallb fst] in H. apply andb_true_iff in H. destruct H as [H1 H2]. apply negb_true_iff in H1. specialize (IH H2 f). cbn [flat_map fst snd]. destruct (f c) as [[| |s]|]; cbn [opt_leaf app fold_right plain_ok leaf]; auto. }
    assert (V : forall get c, fold_right (fun c r => plain_ok c /\ r) True (real_value get c)).
    { intros get c. unfold real_value. destruct (get c) as [[| |s]|], (get (c ++ "_uncertainty")) as [[| |s']|]; cbn; repeat split. }
    assert (M : forall id get type oid, child_ok (magnitude_lines agencyID author id get type oid)).
    { intros. cbn [magnitude_lines child_ok]. repeat (apply Forall_cons; [first [exact I | (split; [reflexivity|]; first [apply V | (split; [exact I|apply V]) | (cbn; repeat split)])]|]). apply Forall_nil. }
    assert (O : forall id get, child_ok (origin_lines int_text agencyID author id get)).
    { intros. cbn [origin_lines child_ok].
      assert (Q : plain_ok (PElem "quality" [] (ws (nl 20) :: app (flat_map (fun tc => opt_leaf (fst tc) (int_of int_text (get (snd tc)))) int_counts) (flat_map (fun tc => opt_leaf (fst tc) (get (snd tc))) measures)))).
      { split; [reflexivity|]. split; [exact I|]. rewrite fold_right_app.
        assert (A : forall l (X : Prop), X -> fold_right (fun c r => plain_ok c /\ r) True l -> fold_right (fun c r => plain_ok c /\ r) X l) by (induction l as [|y l IHl]; intros X HX HY; [exact HX|]; destruct HY; split; auto).
        apply A; [apply (R measures eq_refl get)|]. apply (R int_counts eq_refl (fun c => int_of int_text (get c))). }
      repeat (apply Forall_cons; [first [exact I | exact Q | (split; [reflexivity|]; first [(split; [exact I|apply V]) | (cbn; repeat split)])]|]). apply Forall_nil. }
    assert (S : forall l gap rest, Forall child_ok l -> Forall child_ok rest -> Forall child_ok (app (secondary_lines gap l) rest)).
    { induction l as [|c l IH]; intros gap rest Hl Hr; cbn [secondary_lines app]; [constructor; [exact I|exact Hr]|]. inversion_clear Hl. constructor; [exact I|]. constructor; [assumption|]. apply IH; assumption. }
    apply Forall_app. split.
    - repeat (apply Forall_cons; [first [exact I | apply M | (cbn; repeat split)]|]). apply Forall_nil.
    - apply S.
      + apply Forall_forall. intros c Hc. apply in_map_iff in Hc. destruct Hc as (x & <- & _). apply M.
      + repeat (apply Forall_cons; [first [exact I | apply O | (cbn; repeat split)]|]). apply Forall_nil.
  Qed.
  Lemma pairs_ok L : Forall doc_ok (pairs L).
  Proof. induction L as [|p L IH]; [constructor|]. unfold pairs. cbn [map flat_map app]. constructor; [apply lines_ok|]. constructor; [exact I|exact IH]. Qed.
  Lemma pairs_events L : flat_map events_of (pairs L) = map lines L.
  Proof. induction L as [|p L IH]; [reflexivity|]. unfold pairs. cbn [map flat_map app events_of]. f_equal. exact IH. Qed.
  Definition document (L : list (nat * dict val)) : doc := document_lines (map lines L).
  Lemma document_ok L : doc_ok (document L).
  Proof.
    unfold document, document_lines. cbn [doc_ok fold_right]. split; [reflexivity|]. split; [exact I|]. split; [|split; exact I]. split; [reflexivity|]. split; [exact I|]. fold (pairs L). pose proof (pairs_ok L) as H. induction H; [exact I|split; assumption].
  Qed.
  Lemma document_safe L : Forall (fun p => cells_writable (dget (snd p))) L -> safe (plain_of_doc (document L)).
  Proof.
    intros H. unfold document, document_lines. cbn [plain_of_doc map]. fold (pairs L). apply elem_safe; [reflexivity| |cbn; repeat split; auto; discriminate|].
    - split; [constructor; [cbn; intuition discriminate|constructor; [intros []|constructor]]|]. repeat constructor.
    - split; [apply ws_safe; reflexivity|]. split; [|split; [apply ws_safe; reflexivity|exact I]]. apply elem_safe; [reflexivity|apply one_attr; [reflexivity|apply writable_lit; reflexivity]|apply pairs_apart|].
      split; [apply gap_safe|]. apply safe_forall. apply pairs_safe. exact H.
  Qed.
  Lemma document_events L : events_of (document L) = map lines L.
  Proof. unfold document, document_lines. cbn [events_of flat_map app]. fold (pairs L). rewrite app_nil_r. apply pairs_events. Qed.
  Lemma records_lines tf tm so ia iq L : map_res (record tf tm so ia iq) (map merge_event (map lines L)) = map_res (record tf tm so ia iq) (map (fun p => export_event int_text agencyID author columns (fresh (fst p)) (snd p)) L).
  Proof. induction L as [|p L IH]; [reflexivity|]. cbn [map map_res]. unfold lines at 1. rewrite record_lines, IH. reflexivity. Qed.
  Lemma parse_document tf tm so ia iq L : parse_quakeml tf tm so ia iq (ser_doc (merge_doc (document L))) = map_res (record tf tm so ia iq) (map (fun p => export_event int_text agencyID author columns (fresh (fst p)) (snd p)) L).
  Proof. rewrite parse_docs by (apply merge_doc_ok, document_ok). rewrite events_merge, document_events. apply records_lines. Qed.
End Table.
Lemma chosen_In rows p : In p (chosen rows) -> In (snd p) rows.
Proof. intros H. apply filter_In in H. destruct H as [H _]. destruct p as [i r]. apply in_combine_r in H. exact H. Qed.
Lemma parse_exported tf tm so ia iq int_text agencyID author columns fresh rows docs : to_quakeml int_text agencyID author columns fresh rows = Ok docs ->
  parse_quakeml tf tm so ia iq (flat_map ser_doc docs) = map_res (record tf tm so ia iq) (map (fun p => export_event int_text agencyID author columns (fresh (fst p)) (snd p)) (chosen rows)).
Proof.
  intros E. rewrite parse_docs_list.
  - change (flat_map events_of docs) with (docs_events docs). rewrite (docs_eq _ _ _ _ _ _ _ E). reflexivity.
  - unfold to_quakeml in E. destruct (check_required_cols _ _); [|discriminate]. injection E as <-. apply Forall_cons; [|apply Forall_nil]. cbn [doc_ok fold_right]. split; [reflexivity|]. split; [|exact I]. split; [reflexivity|].
    fold (chosen rows). generalize (chosen rows). intros L. induction L as [|p L IH]; [exact I|]. cbn [map fold_right doc_ok]. split; [apply event_ok|exact IH].
Qed.
(** The string that to_quakeml returns, written to a file or passed on as it is, is read back as the
    rows of the table, if nothing in it needs escaping. *)
Theorem C186_text_round_trip : forall cut tf tm so iq int_text agencyID author columns fresh rows, fair_cut solid cut -> arranges so ->
  good_table columns rows -> (forall s, presentable (int_text s)) -> (forall i c, presentable (fresh i c)) ->
  writable_table columns rows -> writable agencyID -> writable author -> (forall s, writable (int_text s)) -> (forall i c, writable (fresh i c)) ->
  exists text rows' records, to_quakeml_text int_text agencyID author columns fresh rows = Ok text /\ picked row_complete rows rows' /\
    parse_quakeml_file cut tf tm so true iq text = Records records /\ parse_quakeml_string cut tf tm so true iq text = Records records /\
    Forall2 (comes_back int_text iq columns) rows' records.
Proof.
  intros cut tf tm so iq int_text agencyID author columns fresh rows Hcut Hso Hg Hi Hf [Wc Wr] Wag Wau Wi Wf.
  destruct (C150_round_trip tf tm so iq int_text agencyID author columns fresh rows Hso Hg Hi Hf) as (docs & rows' & records & E1 & E2 & E3 & F).
  rewrite (parse_exported _ _ _ _ _ _ _ _ _ _ _ _ E1) in E3. rewrite <- (parse_document int_text agencyID author columns fresh tf tm so true iq (chosen rows)) in E3.
  exists (xml_declaration ++ xml (plain_of_doc (document int_text agencyID author columns fresh (chosen rows)))), rows', records.
  split. { unfold to_quakeml in E1. unfold to_quakeml_text. destruct (check_required_cols _ _); [reflexivity|discriminate]. }
  split; [exact E2|].
  assert (HS : safe (plain_of_doc (document int_text agencyID author columns fresh (chosen rows)))).
  { apply document_safe; auto. apply Forall_forall. intros p Hp. apply chosen_In in Hp. rewrite Forall_forall in Wr. intros c s. apply (Wr _ Hp). }
  destruct (C183_text cut tf tm so true iq xml_declaration (document int_text agencyID author columns fresh (chosen rows)) "" Hcut declaration_heading eq_refl (document_ok _ _ _ _ _ _) ltac:(discriminate) HS) as [T1 T2].
  rewrite app_nil_s in T1, T2. rewrite T1, T2, E3. split; [reflexivity|]. split; [reflexivity|exact F].
Qed.
Print Assumptions C186_text_round_trip.
