(** * C53, C54, C56, C99: parsing QuakeML *)
From Coq Require Import List Bool String Ascii Lia ZArith QArith.
From Verif Require Import Base Dict QuakeML_model Spec_QuakeML QuakeML_proofs.
Import ListNotations.
Open Scope string_scope.

(** ** C54: one record per event, in document order; a record depends on its event only *)
Theorem C54_one_record_per_event : forall tf tm so ia iq, exists record : event -> res pd, forall docs,
  Forall doc_ok docs -> parse_quakeml tf tm so ia iq (flat_map ser_doc docs) = map_res record (docs_events docs).
Proof.
  intros tf tm so ia iq. exists (record tf tm so ia iq). intros docs Hok. unfold parse_quakeml, docs_events.
  assert (K : forall l cat, Forall doc_ok l -> handle_all tf tm so ia iq (h_init cat) (flat_map ser_doc l) = let? ds := map_res (record tf tm so ia iq) (flat_map events_of l) in Ok (h_init (app cat ds))).
  { induction l as [|d l IH]; intros cat H; [cbn; rewrite app_nil_r; reflexivity|]. inversion_clear H as [|? ? H1 H2]. cbn [flat_map]. rewrite run_app, run_doc by exact H1. rewrite map_res_app.
    destruct (map_res _ (events_of d)) as [ds|]; cbn [rbind]; [|reflexivity]. rewrite IH by exact H2. destruct (map_res _ (flat_map events_of l)); cbn [rbind]; [rewrite app_assoc; reflexivity|reflexivity]. }
  rewrite K by exact Hok. destruct (map_res _ (flat_map events_of docs)); reflexivity.
Qed.
Print Assumptions C54_one_record_per_event.
(** the record is made from the fields of the event, its origins and its magnitudes (in document
    order), each field holding the joined texts at its path *)
Definition shows (d : pd) (l : list (string * string)) : Prop := forall k, dget d k = option_map Some (field l k).
Theorem C54_fields : forall tf tm so ia iq e, Forall child_ok (ev_children e) -> exists ev origins mags,
  shows ev (event_fields strip e) /\ Forall2 shows origins (origin_fields strip e) /\ Forall2 shows mags (magnitude_fields strip e) /\
  parse_quakeml tf tm so ia iq (ser_doc (DEvent e)) = rmap (fun r => [r]) (parse_to_dict tf tm so ia iq ev origins mags).
Proof.
  intros tf tm so ia iq e Hok. exists (absorb [] (event_fields strip e)), (map (absorb []) (origin_fields strip e)), (map (absorb []) (magnitude_fields strip e)).
  split; [intros k; apply absorb_field|]. assert (F : forall l, Forall2 shows (map (absorb []) l) l) by (induction l; constructor; [intros k; apply absorb_field|assumption]).
  split; [apply F|]. split; [apply F|]. unfold parse_quakeml. cbn [ser_doc]. rewrite run_event by exact Hok. unfold record. destruct (parse_to_dict _ _ _ _ _ _ _ _); reflexivity.
Qed.
Print Assumptions C54_fields.

(** ** C53: the pieces in which the reader delivers a text *)
(** no white space between two visible characters *)
Definition solid (s : string) : Prop := forall a x b y c, s = a ++ String x (b ++ String y c) -> is_space x = false -> is_space y = false ->
  forall b1 z b2, b = b1 ++ String z b2 -> is_space z = false.
Fixpoint nows (s : string) : string := match s with "" => "" | String c t => if is_space c then nows t else String c (nows t) end.
Lemma nows_app a b : nows (a ++ b) = nows a ++ nows b.
Proof. induction a as [|c a IH]; cbn; [reflexivity|]. destruct (is_space c); cbn; rewrite IH; reflexivity. Qed.
Lemma nows_lstrip s : nows (lstrip s) = nows s.
Proof. induction s as [|c s IH]; [reflexivity|]. cbn. destruct (is_space c) eqn:E; [exact IH|cbn; rewrite E; reflexivity]. Qed.
Lemma nows_rstrip s : nows (rstrip s) = nows s.
Proof.
  induction s as [|c s IH]; [reflexivity|]. cbn. destruct (rstrip s) as [|c' r] eqn:E.
  - cbn in IH. rewrite <- IH. destruct (is_space c) eqn:F; cbn; [reflexivity|rewrite F; reflexivity].
  - rewrite <- IH. destruct (is_space c) eqn:F; cbn; rewrite F; reflexivity.
Qed.
Lemma lstrip_form s : exists a, s = a ++ lstrip s /\ (lstrip s = "" \/ exists x t, lstrip s = String x t /\ is_space x = false).
Proof.
  induction s as [|c s (a & E & H)]; [exists ""; split; [reflexivity|left; reflexivity]|]. cbn. destruct (is_space c) eqn:F.
  - exists (String c a). split; [cbn; rewrite <- E; reflexivity|exact H].
  - exists "". split; [reflexivity|right; eauto].
Qed.
Lemma rstrip_form s : exists b, s = rstrip s ++ b /\ (rstrip s = "" \/ exists r y, rstrip s = r ++ String y "" /\ is_space y = false).
Proof.
  induction s as [|c s (b & E & H)]; [exists ""; split; [reflexivity|left; reflexivity]|]. cbn. destruct (rstrip s) as [|c' r] eqn:G.
  - destruct (is_space c) eqn:F.
    + exists (String c s). split; [reflexivity|left; reflexivity].
    + exists s. split; [reflexivity|]. right. exists "", c. split; [reflexivity|exact F].
  - exists b. split; [cbn in *; rewrite <- E; reflexivity|]. right. destruct H as [H|(r' & y & H & Hy)]; [discriminate|]. exists (String c r'), y. rewrite H. split; [reflexivity|exact Hy].
Qed.
Lemma nows_id s : (forall b1 z b2, s = b1 ++ String z b2 -> is_space z = false) -> nows s = s.
Proof.
  induction s as [|c s IH]; intros H; [reflexivity|]. cbn. rewrite (H "" c s eq_refl). rewrite IH; [reflexivity|]. intros b1 z b2 E. apply (H (String c b1) z b2). cbn. rewrite E. reflexivity.
Qed.
Lemma app_inv_s a b c : a ++ b = a ++ c -> b = c.
Proof. induction a; cbn; intros H; [exact H|]. injection H as H. auto. Qed.
Lemma solid_strip s : solid s -> strip s = nows s.
Proof.
  intros H. rewrite <- (nows_lstrip s), <- (nows_rstrip (lstrip s)). fold (strip s). symmetry. apply nows_id.
  destruct (lstrip_form s) as (a & Ea & [E|(x & t & E & Hx)]); [unfold strip; rewrite E; cbn; intros [|? ?] z b2 K; discriminate|].
  unfold strip. rewrite E in *. destruct (rstrip_form (String x t)) as (b & Eb & [F|(r & y & F & Hy)]); [rewrite F; intros [|? ?] z b2 K; discriminate|]. rewrite F in *.
  rewrite Eb in Ea. destruct r as [|x' r].
  - cbn. intros [|? ?] z b2 K; injection K as K1 K2; [subst; exact Hy|]. destruct s0; discriminate.
  - cbn in Eb. injection Eb as <- Et. intros b1 z b2 K. destruct b1 as [|c1 b1]; [cbn in K; injection K as <- _; exact Hx|]. cbn in K. injection K as <- K.
    (* z is y, or it lies in r *)
    assert (Hr : forall b1 z b2, r = b1 ++ String z b2 -> is_space z = false).
    { apply (H a x r y b); [|exact Hx|exact Hy]. rewrite Ea. cbn. rewrite app_assoc_s. reflexivity. }
    clear -K Hr Hy. revert b1 K. induction r as [|c r IH]; intros b1 K; cbn in K.
    + destruct b1 as [|? b1]; cbn in K; injection K as K1 K2; [subst; exact Hy|destruct b1; discriminate].
    + destruct b1 as [|c1 b1]; cbn in K; injection K as K1 K2; [subst; apply (Hr "" z r eq_refl)|]. apply (IH) with (b1 := b1); [|exact K2]. intros b1' z' b2' E'. apply (Hr (String c b1') z' b2'). cbn. rewrite E'. reflexivity.
Qed.
Lemma solid_app_l u v : solid (u ++ v) -> solid u.
Proof. intros H a x b y c E Hx Hy. apply (H a x b y (c ++ v)); [|exact Hx|exact Hy]. rewrite E. rewrite app_assoc_s. cbn. rewrite app_assoc_s. reflexivity. Qed.
Lemma solid_app_r u v : solid (u ++ v) -> solid v.
Proof. intros H a x b y c E Hx Hy. apply (H (u ++ a) x b y c); [|exact Hx|exact Hy]. rewrite E, app_assoc_s. reflexivity. Qed.
Lemma dset_dset (d : pd) k x y : dset (dset d k x) k y = dset d k y.
Proof. induction d as [|[a b] d IH]; cbn; [rewrite String.eqb_refl; reflexivity|]. destruct (k =? a) eqn:E; cbn; rewrite E; [reflexivity|]. rewrite IH. reflexivity. Qed.
Lemma absorb1_twice d k a b : absorb1 (absorb1 d k a) k b = absorb1 d k (a ++ b).
Proof. unfold absorb1. destruct (dget d k) as [[o|]|]; rewrite dget_dset, String.eqb_refl, dset_dset; [rewrite app_assoc_s; reflexivity|reflexivity|reflexivity]. Qed.
Lemma visible_whole k ps : forall d, solid (join ps) -> absorb d (visible strip k ps) = absorb d (visible strip k (whole ps)).
Proof.
  induction ps as [|p ps IH]; intros d H; [reflexivity|]. change (join (p :: ps)) with (p ++ join ps) in *. assert (Hp : solid p) by (exact (solid_app_l p (join ps) H)). assert (Hps : solid (join ps)) by (exact (solid_app_r p (join ps) H)).
  cbn [visible flat_map whole]. fold (visible strip k ps). rewrite app_nil_r, absorb_app, (IH _ Hps). cbn [visible flat_map whole]. rewrite app_nil_r.
  change (join (p :: ps)) with (p ++ join ps). rewrite (solid_strip _ H), (solid_strip _ Hp), (solid_strip _ Hps), nows_app.
  destruct (nows p) as [|c1 r1]; destruct (nows (join ps)) as [|c2 r2]; cbn [append String.eqb absorb fold_left fst snd]; try reflexivity.
  - rewrite app_nil_s. reflexivity.
  - apply absorb1_twice.
Qed.
Fixpoint plain_solid (p : plain) : Prop :=
  match p with PText ps => solid (join ps) | PElem _ _ ch => fold_right (fun c r => plain_solid c /\ r) True ch end.
Definition child_solid (c : child) : Prop :=
  match c with Plain p => plain_solid p | Origin _ ch | Magnitude _ ch => Forall plain_solid ch end.
(** no text inside an event has inner white space *)
Definition event_solid (e : event) : Prop := Forall child_solid (ev_children e).
Lemma texts_merge p : forall d k, plain_solid p -> absorb d (texts strip k p) = absorb d (texts strip k (merge_plain p)).
Proof.
  induction p as [ps|t a ch IH] using plain_ind'; intros d k H; [apply visible_whole; exact H|]. cbn [texts merge_plain plain_solid] in *. revert d H.
  induction ch as [|c ch IHc]; intros d H; [reflexivity|]. inversion_clear IH as [|? ? F1 F2]. cbn [fold_right] in H. destruct H as [S1 S2]. cbn [flat_map map]. rewrite !absorb_app, F1 by exact S1. apply IHc; assumption.
Qed.
Lemma texts_merge_list ch : forall d k, Forall plain_solid ch -> absorb d (flat_map (texts strip k) ch) = absorb d (flat_map (texts strip k) (map merge_plain ch)).
Proof. induction ch as [|c ch IH]; intros d k H; [reflexivity|]. inversion_clear H as [|? ? H1 H2]. cbn [flat_map map]. rewrite !absorb_app, (texts_merge c) by exact H1. apply IH. exact H2. Qed.
Definition merge_event (e : event) : event := mkevent (ev_attrs e) (map merge_child (ev_children e)).
Lemma record_merge tf tm so ia iq e : event_solid e -> record tf tm so ia iq e = record tf tm so ia iq (merge_event e).
Proof.
  intros H. unfold record, event_solid in *. f_equal.
  - unfold event_fields, merge_event. cbn [ev_attrs ev_children]. rewrite !absorb_app. set (d := absorb [] (public "" (ev_attrs e))). clearbody d. revert d H.
    induction (ev_children e) as [|c l IH]; intros d H; [reflexivity|]. inversion_clear H as [|? ? H1 H2]. cbn [flat_map map]. rewrite !absorb_app.
    destruct c as [p|a ch|a ch]; cbn [merge_child]; [|apply IH; exact H2|apply IH; exact H2]. rewrite (texts_merge p) by exact H1. apply IH. exact H2.
  - unfold origin_fields, merge_event. cbn [ev_children]. induction (ev_children e) as [|c l IH]; [reflexivity|]. inversion_clear H as [|? ? H1 H2]. cbn [flat_map map]. rewrite !map_app, (IH H2). f_equal.
    destruct c as [p|a ch|a ch]; cbn [merge_child]; try reflexivity. cbn [map]. f_equal. unfold node_fields. rewrite !absorb_app. apply texts_merge_list. exact H1.
  - unfold magnitude_fields, merge_event. cbn [ev_children]. induction (ev_children e) as [|c l IH]; [reflexivity|]. inversion_clear H as [|? ? H1 H2]. cbn [flat_map map]. rewrite !map_app, (IH H2). f_equal.
    destruct c as [p|a ch|a ch]; cbn [merge_child]; try reflexivity. cbn [map]. f_equal. unfold node_fields. rewrite !absorb_app. apply texts_merge_list. exact H1.
Qed.
Lemma merge_ok p : plain_ok p -> plain_ok (merge_plain p).
Proof. induction p as [ps|t a ch IH] using plain_ind'; intros H; [exact I|]. cbn in *. destruct H as [H1 H2]. split; [exact H1|]. induction ch as [|c ch IHc]; [exact I|]. inversion_clear IH as [|? ? F1 F2]. cbn in *. destruct H2. split; auto. Qed.
Lemma merge_child_ok c : child_ok c -> child_ok (merge_child c).
Proof. destruct c as [p|a ch|a ch]; cbn; [apply merge_ok|intros H; induction H; constructor; auto; apply merge_ok; assumption|intros H; induction H; constructor; auto; apply merge_ok; assumption]. Qed.
Lemma merge_doc_ok d : doc_ok d -> doc_ok (merge_doc d).
Proof.
  induction d as [ps|t a ch IH|e] using doc_ind'; intros H; [exact I| |].
  - cbn in *. destruct H as [H1 H2]. split; [exact H1|]. induction ch as [|c ch IHc]; [exact I|]. inversion_clear IH as [|? ? F1 F2]. cbn in *. destruct H2. split; auto.
  - cbn in *. induction H; constructor; auto. apply merge_child_ok. assumption.
Qed.
Lemma events_merge d : events_of (merge_doc d) = map merge_event (events_of d).
Proof.
  induction d as [ps|t a ch IH|e] using doc_ind'; [reflexivity| |reflexivity]. cbn [events_of merge_doc]. induction ch as [|c ch IHc]; [reflexivity|]. inversion_clear IH as [|? ? F1 F2]. cbn [map flat_map]. rewrite map_app, F1, IHc by exact F2. reflexivity.
Qed.
(** If no text inside events has inner white space, the result is that for whole texts,
    however the reader cuts them (white space around the texts included). *)
Theorem C53_pieces : forall tf tm so ia iq docs, Forall doc_ok docs -> Forall event_solid (docs_events docs) ->
  parse_quakeml tf tm so ia iq (flat_map ser_doc docs) = parse_quakeml tf tm so ia iq (flat_map ser_doc (map merge_doc docs)).
Proof.
  intros tf tm so ia iq docs Hok Hs.
  assert (P : forall docs, Forall doc_ok docs -> parse_quakeml tf tm so ia iq (flat_map ser_doc docs) = map_res (record tf tm so ia iq) (docs_events docs)).
  { clear. intros docs Hok. unfold parse_quakeml, docs_events.
    assert (K : forall l cat, Forall doc_ok l -> handle_all tf tm so ia iq (h_init cat) (flat_map ser_doc l) = let? ds := map_res (record tf tm so ia iq) (flat_map events_of l) in Ok (h_init (app cat ds))).
    { induction l as [|d l IH]; intros cat H; [cbn; rewrite app_nil_r; reflexivity|]. inversion_clear H as [|? ? H1 H2]. cbn [flat_map]. rewrite run_app, run_doc by exact H1. rewrite map_res_app.
      destruct (map_res _ (events_of d)) as [ds|]; cbn [rbind]; [|reflexivity]. rewrite IH by exact H2. destruct (map_res _ (flat_map events_of l)); cbn [rbind]; [rewrite app_assoc; reflexivity|reflexivity]. }
    rewrite K by exact Hok. destruct (map_res _ (flat_map events_of docs)); reflexivity. }
  rewrite (P docs Hok), P by (apply Forall_map; eapply Forall_impl; [|exact Hok]; intros d; apply merge_doc_ok).
  unfold docs_events in *. assert (E : flat_map events_of (map merge_doc docs) = map merge_event (flat_map events_of docs)).
  { clear. induction docs as [|d docs IH]; [reflexivity|]. cbn [map flat_map]. rewrite map_app, events_merge, IH. reflexivity. }
  rewrite E. clear E. induction Hs as [|e l H1 H2 IH]; [reflexivity|]. cbn [map map_res]. rewrite (record_merge _ _ _ _ _ e H1), IH. reflexivity.
Qed.
Print Assumptions C53_pieces.

(** ** C99: texts with inner white space *)
Definition quarry (pieces : list string) : doc := DElem "quakeml" [] [DElem "eventParameters" [] [DText [" "];
  DEvent (mkevent [("publicID", "ev1")] [Plain (PElem "type" [] [PText pieces])])]].
Theorem C99_inner_white_space_refuted : forall tf tm so ia iq,
  merge_doc (quarry ["quarry blast"]) = merge_doc (quarry ["quarry "; "blast"]) /\
  exists r r', parse_quakeml tf tm so ia iq (ser_doc (quarry ["quarry blast"])) = Ok [r] /\ dget r "event_type" = Some (Some "quarry blast") /\
    parse_quakeml tf tm so ia iq (ser_doc (quarry ["quarry "; "blast"])) = Ok [r'] /\ dget r' "event_type" = Some (Some "quarryblast").
Proof. intros. split; [reflexivity|]. destruct iq; do 2 eexists; (split; [vm_compute; reflexivity|]); (split; [vm_compute; reflexivity|]); (split; [vm_compute; reflexivity|]); vm_compute; reflexivity. Qed.
Print Assumptions C99_inner_white_space_refuted.

(** ** C56: a magnitude without type *)
Lemma find_id_keyerror key l id e : find_id key l id = Err e -> e = KeyError.
Proof. induction l as [|m l IH]; cbn; [discriminate|]. unfold getitem. destruct (dget m key); cbn; [|congruence]. destruct (oeqb _ _); [discriminate|exact IH]. Qed.
Lemma filter_res_err {A} (f : A -> res bool) l : (forall x e, f x = Err e -> e = KeyError) -> forall e, filter_res f l = Err e -> e = KeyError.
Proof. intros Hf. induction l as [|x l IH]; cbn; [discriminate|]. intros e. destruct (f x) eqn:E; cbn; [|intros [= <-]; exact (Hf x _ E)]. destruct (filter_res f l) eqn:F; cbn; [discriminate|]. intros [= <-]. apply IH. reflexivity. Qed.
Lemma filter_res_in {A} (f : A -> res bool) l x : In x l -> (exists e, f x = Err e) -> exists e, filter_res f l = Err e.
Proof. induction l as [|y l IH]; intros Hin He; [destruct Hin|]. cbn. destruct Hin as [->|Hin]; [destruct He as (e & ->); eexists; reflexivity|]. destruct (f y); [|eexists; reflexivity]. cbn. destruct (IH Hin He) as (e & ->). eexists; reflexivity. Qed.
Theorem C56_missing_type_refuted : forall tf tm so ia iq ev origins mags m, In m mags -> dget m "magnitudetype" = None ->
  parse_to_dict tf tm so ia iq ev origins mags = Err KeyError.
Proof.
  intros tf tm so ia iq ev origins mags m Hin Hm. unfold parse_to_dict.
  assert (HO : forall o id e, select_origin_by_id o id = Err e -> e = KeyError).
  { intros o id e. unfold select_origin_by_id. destruct (find_id "originpublicID" o id) eqn:F; cbn [rbind]; [|intros [= <-]; exact (find_id_keyerror _ _ _ _ F)].
    destruct (filter_res _ o) eqn:G; cbn [rbind]; [discriminate|]. intros [= <-]. eapply filter_res_err; [|exact G]. intros x e1. cbv beta. unfold getitem. destruct (dget x "originpublicID"); cbn; congruence. }
  destruct (select_origin_by_id origins (get_default ev "preferredOriginID")) as [[po ro]|e] eqn:E; [|rewrite (HO _ _ _ E); reflexivity]. cbn [rbind].
  set (id := get_default ev "preferredMagnitudeID"). assert (HM : select_magnitude_by_id mags id = Err KeyError); [|rewrite HM; reflexivity].
  unfold select_magnitude_by_id. destruct (find_id "magnitudepublicID" mags id) as [found|e] eqn:F; cbn [rbind]; [|rewrite (find_id_keyerror _ _ _ _ F); reflexivity].
  set (pref := match found with Some m0 => m0 | None => dummy_magnitude end).
  match goal with |- context [filter_res ?f mags] => set (keep := f) end.
  destruct (filter_res_in keep mags m Hin) as (e & G); [exists KeyError; unfold keep, getitem; rewrite Hm; reflexivity|]. rewrite G. cbn [rbind]. f_equal. eapply filter_res_err; [|exact G].
  intros x e1. unfold keep, getitem. destruct (dget x "magnitudetype"); cbn [rbind]; [|congruence]. destruct (dget pref "magnitudetype"); cbn [rbind]; [|congruence]. destruct (oeqb _ _); cbn [negb]; [|discriminate]. destruct (dget x "magnitudepublicID"); cbn [rbind]; congruence.
Qed.
Print Assumptions C56_missing_type_refuted.
(** a document with one event whose preferred magnitude has a value but no type element *)
Definition untyped : doc := DEvent (mkevent [("publicID", "ev1")] [
  Plain (PElem "preferredMagnitudeID" [] [PText ["m1"]]);
  Magnitude [("publicID", "m1")] [PElem "mag" [] [PElem "value" [] [PText ["2.1"]]]]]).
Example C56_case : forall tf tm so ia iq, doc_ok untyped /\ parse_quakeml tf tm so ia iq (ser_doc untyped) = Err KeyError.
Proof. intros. split; [cbn; repeat constructor|]. vm_compute. reflexivity. Qed.

(** ** a document that meets the hypotheses of C53 and C54, in pieces *)
Definition sample : doc := DElem "quakeml" [] [DElem "eventParameters" [] [
  DText ["  "];
  DEvent (mkevent [("publicID", "ev1")] [
    Plain (PElem "preferredMagnitudeID" [] [PText ["m"; "1"]]); Plain (PElem "preferredOriginID" [] [PText [" o1 "]]); Plain (PText [" "]);
    Plain (PElem "type" [] [PText ["earth"; "quake"]]);
    Magnitude [("publicID", "m1")] [PElem "mag" [] [PElem "value" [] [PText ["2."; "1"]]]; PElem "type" [] [PText ["ML"]]];
    Magnitude [("publicID", "m2")] [PElem "mag" [] [PElem "value" [] [PText ["2.2"]]]; PElem "type" [] [PText ["Mw"]]];
    Origin [("publicID", "o1")] [PElem "depth" [] [PElem "value" [] [PText ["1000"]]]]]);
  DEvent (mkevent [("publicID", "ev2")] [])]].
Example C54_case : forall tf tm so iq, doc_ok sample /\ exists r r', parse_quakeml tf tm so true iq (ser_doc sample) = Ok [r; r'] /\
  dget r "event_type" = Some (Some "earthquake") /\ dget r "magnitude" = Some (Some "2.1") /\ dget r "magnitude_Mw" = Some (Some "2.2") /\ dget r "depth" = Some (Some "1000") /\
  dget r' "eventID" = Some (Some "ev2") /\ dget r' "magnitude" = Some None /\ dget r' "magnitude_Mw" = None.
Proof.
  intros. split; [cbn; repeat (split || constructor)|]. destruct iq; do 2 eexists; (split; [vm_compute; reflexivity|]); repeat split; vm_compute; reflexivity.
Qed.
(** a computable test for [solid] *)
Fixpoint blank (s : string) : bool := match s with "" => true | String c t => is_space c && blank t end.
Fixpoint word (s : string) : bool := match s with "" => true | String c t => if is_space c then blank t else word t end.
Fixpoint solid_b (s : string) : bool := match s with "" => true | String c t => if is_space c then solid_b t else word t end.
Lemma blank_solid s : blank s = true -> solid_b s = true.
Proof. induction s as [|c s IH]; cbn; [reflexivity|]. intros H. apply andb_true_iff in H. destruct H as [-> H]. auto. Qed.
Lemma word_solid s : word s = true -> solid_b s = true.
Proof. destruct s as [|c s]; cbn; [reflexivity|]. destruct (is_space c); [apply blank_solid|auto]. Qed.
Lemma blank_app a b : blank (a ++ b) = blank a && blank b.
Proof. induction a as [|c a IH]; cbn; [reflexivity|]. rewrite IH, andb_assoc. reflexivity. Qed.
Lemma word_inner b y c : word (b ++ String y c) = true -> is_space y = false -> forall b1 z b2, b = b1 ++ String z b2 -> is_space z = false.
Proof.
  intros H Hy b1. revert b H. induction b1 as [|d b1 IH]; intros b H z b2 ->; cbn in H.
  - destruct (is_space z) eqn:E; [|reflexivity]. rewrite blank_app in H. cbn in H. rewrite Hy, andb_false_r in H. discriminate.
  - destruct (is_space d); [rewrite blank_app in H; cbn in H; rewrite Hy, andb_false_r in H; discriminate|]. exact (IH _ H z b2 eq_refl).
Qed.
Lemma solid_b_ok s : solid_b s = true -> solid s.
Proof.
  intros H a. revert s H. induction a as [|d a IH]; intros s H x b y c -> Hx Hy; cbn in H.
  - rewrite Hx in H. exact (word_inner b y c H Hy).
  - destruct (is_space d); [|apply word_solid in H]; exact (IH _ H x b y c eq_refl Hx Hy).
Qed.
Example C53_case : Forall event_solid (docs_events [sample]).
Proof. repeat first [apply Forall_cons | apply Forall_nil | split | exact I | (apply solid_b_ok; reflexivity)]. Qed.
