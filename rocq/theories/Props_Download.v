(** * C193, C194, C195: downloading catalogues, from the texts of the service to the records *)
From Coq Require Import ZArith QArith List Bool Lia String.
From Verif Require Import Base Num Dict QuakeML_model Spec_QuakeML QuakeML_proofs Props_QuakeML Spec_Xml Xml_model Xml_proofs Recut_proofs Props_Xml Props_Xml2
  Client_model Spec_Client Props_Client ClientText_model Spec_Download.
Import ListNotations.
Open Scope string_scope.

(** ** Lemmas *)
Lemma event_doc_ok d : doc_ok d -> Forall (fun e => doc_ok (DEvent e)) (events_of d).
Proof.
  induction d as [ps|t a ch IH|e] using doc_ind'; intros H; [constructor| |constructor; [exact H|constructor]].
  cbn [events_of]. cbn in H. destruct H as [_ H]. induction ch as [|c ch IHc]; [constructor|]. inversion_clear IH as [|? ? F1 F2]. cbn in H. destruct H as [H1 H2]. cbn [flat_map]. apply Forall_app. split; auto.
Qed.
Lemma part_refl {A} (l : list A) : part_of l l.
Proof. induction l; constructor; assumption. Qed.
Lemma part_none {A} (l : list A) : part_of [] l.
Proof. induction l; constructor; assumption. Qed.
Lemma part_app {A} (a b c d : list A) : part_of a b -> part_of c d -> part_of (app a c) (app b d).
Proof. intros H K. induction H; cbn; [exact K|constructor; assumption|constructor; assumption]. Qed.
Lemma part_front {A} (a b : list A) : part_of a (app a b).
Proof. induction a; cbn; [apply part_none|constructor; assumption]. Qed.

Section Text.
  Context {T : Type} {N : Num T} {D : Type} (strftime : D -> string).
  Notation params := (dict (pval T)).
  Context (cut : list sax -> string -> list string) (tf : option string -> res Q) (tm : option string -> res Z) (so : list (option string) -> list (option string)) (iq : bool).
  Context (Hfair : fair_cut solid cut).
  Notation rec e := (record tf tm so true iq (merge_event e)).
  Definition event_records (evs : list event) : res (list pd) :=
    QuakeML_model.parse_quakeml tf tm so true iq (flat_map ser_doc (map (fun e => merge_doc (DEvent e)) evs)).
  Lemma event_records_map evs : Forall (fun e => doc_ok (DEvent e)) evs -> event_records evs = map_res (fun e => rec e) evs.
  Proof using.
    intros H. unfold event_records. rewrite parse_docs_list.
    - assert (E : flat_map events_of (map (fun e => merge_doc (DEvent e)) evs) = map merge_event evs) by (clear; induction evs; cbn; [reflexivity|f_equal; assumption]).
      rewrite E. clear. induction evs as [|e l IH]; [reflexivity|]. cbn [map map_res]. rewrite IH. reflexivity.
    - apply Forall_forall. intros d Hd. apply in_map_iff in Hd. destruct Hd as (e & <- & He). apply merge_doc_ok. rewrite Forall_forall in H. apply H. exact He.
  Qed.
  Lemma text_not_empty evs t : quakeml_text evs t -> (t =? "") = false.
  Proof using.
    intros (h & d & b & _ & _ & _ & Hd & _ & _ & ->). destruct d as [ps|g a ch|e]; [destruct (Hd ps eq_refl)|apply nonempty_xml|apply nonempty_xml].
  Qed.
  Lemma text_events_ok evs t : quakeml_text evs t -> Forall (fun e => doc_ok (DEvent e)) evs.
  Proof using. intros (h & d & b & _ & _ & Hok & _ & _ & <- & _). unfold docs_events. cbn [flat_map]. rewrite app_nil_r. apply event_doc_ok. exact Hok. Qed.
  Lemma parse_text evs t : quakeml_text evs t -> parse_response cut tf tm so iq t = answer_of (map_res (fun e => rec e) evs).
  Proof using Hfair.
    intros (h & d & b & Hh & Hb & Hok & Hd & HS & <- & ->). unfold parse_response. destruct (C183_text cut tf tm so true iq h d b Hfair Hh Hb Hok Hd HS) as [-> _].
    rewrite parse_docs by (apply merge_doc_ok; exact Hok). rewrite events_merge. unfold docs_events. cbn [flat_map]. rewrite app_nil_r. f_equal.
    generalize (events_of d) as l. induction l as [|e l IH]; [reflexivity|]. cbn [map map_res]. rewrite IH. reflexivity.
  Qed.

  Section Server.
    Context (server : params -> Z * string) (all : params -> list event) (Hs : serves server all).
    Definition page_of (q : params) : list event := page (int_of (dget q "limit")) (int_of (dget q "offset")) (all (without q)).
    Definition evserver (q : params) : response event := mkresp (fst (server q)) (page_of q).
    Lemma ev_honours : honours evserver all.
    Proof using Hs. intros p. split; [reflexivity|]. cbn [r_events r_status evserver]. intros H. destruct (Hs p) as [[E _]|(_ & E & _)]; [contradiction|exact E]. Qed.
    Lemma same_probe q : exists_with_offset (probe_view server q) = exists_with_offset (evserver q).
    Proof using Hs.
      unfold exists_with_offset, probe_view, evserver, page_of. cbn [r_events r_status]. destruct (Hs q) as [[E ->]|(E & _ & Ht)]; [rewrite E; reflexivity|].
      rewrite (text_not_empty _ _ Ht). destruct (page _ _ _); [contradiction|reflexivity].
    Qed.
    Lemma page_answer q : parse_response cut tf tm so iq (snd (server q)) = answer_of (map_res (fun e => rec e) (page_of q)).
    Proof using Hs Hfair. unfold page_of. destruct (Hs q) as [[-> ->]|(_ & _ & Ht)]; [apply (C184_empty_text cut tf tm so true iq)|apply parse_text; exact Ht]. Qed.
    Lemma page_ok q : Forall (fun e => doc_ok (DEvent e)) (page_of q).
    Proof using Hs. unfold page_of. destruct (Hs q) as [[-> _]|(_ & _ & Ht)]; [constructor|exact (text_events_ok _ _ Ht)]. Qed.
    Lemma pages_answer qs : fst (read_pages server cut tf tm so iq qs) = answer_of (map_res (fun e => rec e) (concat (map page_of qs))).
    Proof using Hs Hfair.
      induction qs as [|q qs IH]; [reflexivity|]. cbn [read_pages map concat]. rewrite page_answer, map_res_app. destruct (map_res _ (page_of q)) as [rs|e]; cbn [answer_of rbind]; [|reflexivity].
      destruct (read_pages server cut tf tm so iq qs) as [x log]. cbn [fst] in IH. subst x. destruct (map_res _ (concat _)); reflexivity.
    Qed.
  End Server.
  Lemma count_ext (s1 : params -> response string) (s2 : params -> response event) fuel p bs : (forall q, exists_with_offset (s1 q) = exists_with_offset (s2 q)) ->
    batch_count s1 fuel p bs = batch_count s2 fuel p bs.
  Proof using.
    intros H. assert (G : forall f c, grow s1 f p bs c = grow s2 f p bs c).
    { induction f as [|f IH]; intros c; [reflexivity|]. cbn [grow]. rewrite H. destruct (exists_with_offset _); [rewrite IH|]; reflexivity. }
    assert (B : forall f l h x, bisect s1 f p bs l h x = bisect s2 f p bs l h x).
    { induction f as [|f IH]; intros l h x; [reflexivity|]. cbn [bisect]. destruct (l <=? h)%Z; [|reflexivity]. rewrite H. destruct (exists_with_offset _); rewrite IH; reflexivity. }
    unfold batch_count. rewrite G. destruct (grow s2 fuel p bs 1) as [[c l]|]; [|reflexivity]. rewrite B. reflexivity.
  Qed.
End Text.

(** ** C193: the catalogue that arrives *)
(** the arguments with another batch size *)
Definition with_batch {T D} (a : args T D) (b : option Z) : args T D :=
  mkargs (a_start a) (a_end a) (a_minlat a) (a_maxlat a) (a_minlon a) (a_maxlon a) (a_minmag a) (a_maxmag a) (a_all a) (a_type a) (a_delta a) b (a_kwargs a).
Theorem C193_download : forall T (N : Num T) D (strftime : D -> string) server all cut tf tm so iq a bs, fair_cut solid cut -> serves server all -> (1 <= bs)%Z ->
  dget (build_params strftime a) "limit" = None -> dget (build_params strftime a) "offset" = None ->
  let expected := answer_of (event_records tf tm so iq (all (without (build_params strftime a)))) in
  exists fuel0, forall fuel, (fuel0 < fuel)%nat ->
    (exists log, get_events_text strftime server cut tf tm so fuel iq (with_batch a (Some bs)) = Some (expected, log)) /\
    (exists log, get_events_text strftime server cut tf tm so fuel iq (with_batch a None) = Some (expected, log)).
Proof.
  intros T N D strftime server all cut tf tm so iq a bs Hf Hs Hbs Hl Ho expected. set (p := build_params strftime a) in *.
  pose proof (ev_honours server all Hs) as Hh. set (n := Z.of_nat (List.length (all (without p)))). set (J := Z.to_nat (Z.log2_up (batches n bs))).
  assert (Hone : page_of all p = all (without p)) by (unfold page_of; rewrite Hl, Ho; reflexivity).
  assert (Hok : Forall (fun e => doc_ok (DEvent e)) (all (without p))) by (rewrite <- Hone; apply (page_ok server all Hs)).
  assert (X : expected = answer_of (map_res (fun e => record tf tm so true iq (merge_event e)) (all (without p)))) by (unfold expected; rewrite event_records_map by exact Hok; reflexivity).
  exists (J + 2)%nat. intros fuel Hfu. unfold get_events_text. cbn [a_batch with_batch]. change (build_params strftime (with_batch a (Some bs))) with p. change (build_params strftime (with_batch a None)) with p. split.
  - rewrite (count_ext (probe_view server) (evserver server all) fuel p bs (same_probe server all Hs)).
    destruct (count_run (evserver server all) all Hh p bs Hbs fuel Hfu) as (log & -> & _).
    pose proof (pages_answer cut tf tm so iq Hf server all Hs (batch_params p bs (batches n bs))) as P. fold n.
    destruct (read_pages server cut tf tm so iq (batch_params p bs (batches n bs))) as [x log']. cbn [fst] in P. exists (app log log'). rewrite P, X. do 4 f_equal.
    assert (Hb : (1 <= batches n bs)%Z) by apply batches_pos. rewrite <- (Z2Nat.id (batches n bs)) by lia. apply (batched_all (evserver server all) all Hh p bs Hbs). rewrite Z2Nat.id by lia. apply batches_cover. exact Hbs.
  - exists [p]. rewrite (page_answer cut tf tm so iq Hf server all Hs), Hone, X. reflexivity.
Qed.
Print Assumptions C193_download.

(** ** An interrupted service *)
Section Interrupted.
  Context {T : Type} {N : Num T} (cut : list sax -> string -> list string) (tf : option string -> res Q) (tm : option string -> res Z) (so : list (option string) -> list (option string)) (iq : bool).
  Notation params := (dict (pval T)).
  Context (Hfair : fair_cut solid cut).
  Context (server server' : params -> Z * string) (all : params -> list event) (Hs : serves server all) (Hi : interrupted server server').
  Notation rec e := (record tf tm so true iq (merge_event e)).
  Lemma probe_less q : exists_with_offset (probe_view server' q) = true -> exists_with_offset (evserver server all q) = true.
  Proof using Hs Hi.
    rewrite <- (same_probe server all Hs). unfold exists_with_offset, probe_view. cbn [r_events r_status]. destruct (Hi q) as [-> (rest & E)]. destruct (_ =? 200)%Z; [|discriminate].
    rewrite E. destruct (snd (server' q)); [discriminate|]. reflexivity.
  Qed.
  Context (p : params) (bs : Z) (Hbs : (1 <= bs)%Z).
  Notation n := (Z.of_nat (List.length (all (without p)))).
  Notation J := (Z.to_nat (Z.log2_up (batches n bs))).
  Lemma grow_stops d : forall fuel k, (k + d = J)%nat -> (d < fuel)%nat -> exists c log, grow (probe_view server') fuel p bs (2 ^ Z.of_nat k) = Some (c, log) /\ (0 < c <= 2 ^ Z.of_nat J)%Z.
  Proof using Hs Hi Hbs.
    induction d as [|d IH]; intros [|fuel] k Hk Hf; try lia; cbn [grow]; destruct (exists_with_offset _) eqn:E.
    - apply probe_less in E. rewrite (exists_iff (evserver server all) all (ev_honours server all Hs) p bs Hbs) in E by (apply Z.pow_nonneg; lia). replace k with J in E by lia. rewrite J_lt, Nat.ltb_irrefl in E. discriminate.
    - eexists _, _. split; [reflexivity|]. replace k with J by lia. split; [apply Z.pow_pos_nonneg; lia|lia].
    - replace (2 ^ Z.of_nat k * 2)%Z with (2 ^ Z.of_nat (S k))%Z by (rewrite Nat2Z.inj_succ, Z.pow_succ_r; lia). destruct (IH fuel (S k) ltac:(lia) ltac:(lia)) as (c & log & -> & Hc). eexists _, _. split; [reflexivity|exact Hc].
    - eexists _, _. split; [reflexivity|]. split; [apply Z.pow_pos_nonneg; lia|apply Z.pow_le_mono_r; lia].
  Qed.
  Lemma bisect_stops : forall fuel low high last, (high - low + 1 < Z.of_nat fuel)%Z -> (0 < fuel)%nat -> (0 <= low)%Z -> (0 <= last)%Z ->
    exists m log, bisect (probe_view server') fuel p bs low high last = Some (m, log) /\ (0 <= m)%Z.
  Proof using.
    clear. induction fuel as [|fuel IH]; intros low high last Hf H0 H1 H2; cbn [bisect]; [lia|]. destruct (low <=? high)%Z eqn:E; [|eexists _, _; split; [reflexivity|exact H2]].
    apply Z.leb_le in E. assert (M : (low <= (low + high) / 2 <= high)%Z) by (split; [apply Z.div_le_lower_bound; lia|apply Z.div_le_upper_bound; lia]). set (mid := ((low + high) / 2)%Z) in *. clearbody mid.
    destruct (exists_with_offset _).
    - destruct (IH (mid + 1)%Z high mid ltac:(lia) ltac:(lia) ltac:(lia) ltac:(lia)) as (m & log & -> & Hm). eexists _, _. split; [reflexivity|exact Hm].
    - destruct (IH low (mid - 1)%Z last ltac:(lia) ltac:(lia) ltac:(lia) ltac:(lia)) as (m & log & -> & Hm). eexists _, _. split; [reflexivity|exact Hm].
  Qed.
  Lemma count_stops : exists fuel0, forall fuel, (fuel0 < fuel)%nat -> exists m log, batch_count (probe_view server') fuel p bs = Some (m, log) /\ (0 < m)%Z.
  Proof using Hs Hi Hbs.
    exists (J + Z.to_nat (2 ^ Z.of_nat J) + 2)%nat. intros fuel Hf. unfold batch_count. destruct (grow_stops J fuel 0 ltac:(lia) ltac:(lia)) as (c & log & G & Hc). change (2 ^ Z.of_nat 0)%Z with 1%Z in G. rewrite G.
    assert (Hd : (0 <= c / 2)%Z) by (apply Z.div_pos; lia).
    destruct (bisect_stops fuel (c / 2) c 0 ltac:(lia) ltac:(lia) Hd ltac:(lia)) as (m & log' & -> & Hm). eexists _, _. split; [reflexivity|lia].
  Qed.
  Lemma pages_front k : concat (map (page_of all) (batch_params p bs (Z.of_nat k))) = firstn (k * Z.to_nat bs) (all (without p)).
  Proof using Hs Hbs.
    unfold batch_params. rewrite map_map, Nat2Z.id. rewrite (map_ext _ (fun i => firstn (Z.to_nat bs) (skipn (i * Z.to_nat bs) (all (without p))))).
    - apply pages_concat.
    - intros i. pose proof (serve_page (evserver server all) all (ev_honours server all Hs) p bs (1 + Z.of_nat i * bs)) as E. cbn [r_events evserver] in E. rewrite E. unfold page. do 2 f_equal. nia.
  Qed.
  Lemma page_interrupted q R : map_res (fun e => rec e) (page_of all q) = Ok R ->
    parse_response cut tf tm so iq (snd (server' q)) = ParseError \/ exists R', parse_response cut tf tm so iq (snd (server' q)) = Records R' /\ begins R' R.
  Proof using Hs Hi Hfair.
    intros H. pose proof (page_answer cut tf tm so iq Hfair server all Hs q) as A. rewrite H in A. destruct (Hi q) as [_ (rest & E)]. rewrite E in A.
    exact (C184_cut_off_file cut tf tm so true iq (snd (server' q)) rest R (proj1 Hfair) A).
  Qed.
  Lemma pages_interrupted qs : forall R, map_res (fun e => rec e) (concat (map (page_of all) qs)) = Ok R ->
    fst (read_pages server' cut tf tm so iq qs) = ParseError \/ exists R', fst (read_pages server' cut tf tm so iq qs) = Records R' /\ part_of R' R.
  Proof using Hs Hi Hfair.
    induction qs as [|q qs IH]; intros R H; [right; exists []; split; [reflexivity|apply part_none]|]. cbn [map concat] in H. rewrite map_res_app in H.
    destruct (map_res _ (page_of all q)) as [R1|e] eqn:E1; cbn [rbind] in H; [|discriminate]. destruct (map_res _ (concat _)) as [R2|e] eqn:E2; cbn [rbind] in H; [|discriminate]. injection H as <-.
    cbn [read_pages]. destruct (page_interrupted q R1 E1) as [->|(R1' & -> & l & ->)]; [left; reflexivity|].
    destruct (read_pages server' cut tf tm so iq qs) as [x log]. cbn [fst] in IH. destruct (IH R2 eq_refl) as [->|(R2' & -> & P)]; [left; reflexivity|]. right. eexists. split; [reflexivity|].
    apply part_app; [apply part_front|exact P].
  Qed.
End Interrupted.
(** Whatever bodies end too soon, and wherever: the download ends, with SAXParseException or with some
    of the records of the complete download, unchanged, in order, none twice. *)
Theorem C193_interrupted : forall T (N : Num T) D (strftime : D -> string) server server' all cut tf tm so iq a rs, fair_cut solid cut -> serves server all -> interrupted server server' ->
  dget (build_params strftime a) "limit" = None -> dget (build_params strftime a) "offset" = None -> (forall bs, a_batch a = Some bs -> 1 <= bs)%Z ->
  event_records tf tm so iq (all (without (build_params strftime a))) = Ok rs ->
  exists fuel0, forall fuel, (fuel0 < fuel)%nat -> exists x log, get_events_text strftime server' cut tf tm so fuel iq a = Some (x, log) /\
    (x = ParseError \/ exists rs', x = Records rs' /\ part_of rs' rs).
Proof.
  intros T N D strftime server server' all cut tf tm so iq a rs Hf Hs Hi Hl Ho Hb Hr. unfold get_events_text. set (p := build_params strftime a) in *.
  assert (Hone : page_of all p = all (without p)) by (unfold page_of; rewrite Hl, Ho; reflexivity).
  assert (Hok : Forall (fun e => doc_ok (DEvent e)) (all (without p))) by (rewrite <- Hone; apply (page_ok server all Hs)). rewrite event_records_map in Hr by exact Hok.
  destruct (a_batch a) as [bs|].
  - specialize (Hb bs eq_refl). destruct (count_stops server server' all Hs Hi p bs Hb) as (fuel0 & C). exists fuel0. intros fuel Hfu. destruct (C fuel Hfu) as (m & log & -> & Hm).
    rewrite <- (Z2Nat.id m) by lia. set (k := Z.to_nat m).
    assert (M : exists R1 R2, map_res (fun e => record tf tm so true iq (merge_event e)) (concat (map (page_of all) (batch_params p bs (Z.of_nat k)))) = Ok R1 /\ rs = app R1 R2).
    { rewrite (pages_front server all Hs p bs Hb k). rewrite <- (firstn_skipn (k * Z.to_nat bs) (all (without p))), map_res_app in Hr.
      destruct (map_res _ (firstn _ _)) as [R1|]; cbn [rbind] in Hr; [|discriminate]. destruct (map_res _ (skipn _ _)) as [R2|]; cbn [rbind] in Hr; [|discriminate]. injection Hr as <-. eauto. }
    destruct M as (R1 & R2 & E & ->). pose proof (pages_interrupted cut tf tm so iq Hf server server' all Hs Hi _ R1 E) as P.
    destruct (read_pages server' cut tf tm so iq (batch_params p bs (Z.of_nat k))) as [x log']. cbn [fst] in P. eexists _, _. split; [reflexivity|]. destruct P as [->|(R' & -> & P)]; [left; reflexivity|].
    right. exists R'. split; [reflexivity|]. rewrite <- (app_nil_r R'). apply part_app; [exact P|apply part_none].
  - exists 0%nat. intros fuel _. eexists _, _. split; [reflexivity|]. rewrite <- Hone in Hr. destruct (page_interrupted cut tf tm so iq Hf server server' all Hs Hi p rs Hr) as [->|(R' & -> & l & ->)]; [left; reflexivity|].
    right. exists R'. split; [reflexivity|]. apply part_front.
Qed.
Print Assumptions C193_interrupted.

(** ** C194: failed and interrupted requests are not reported *)
(** An answer with any status whose body is a text without events, such as an error page in XHTML,
    gives an empty catalogue. *)
Theorem C194_error_page_refuted : forall T (N : Num T) D (strftime : D -> string) server cut tf tm so iq a fuel, fair_cut solid cut -> a_batch a = None ->
  quakeml_text [] (snd (server (build_params strftime a))) ->
  get_events_text strftime server cut tf tm so fuel iq a = Some (Records [], [build_params strftime a]).
Proof. intros T N D strftime server cut tf tm so iq a fuel Hf Ha Ht. unfold get_events_text. rewrite Ha, (parse_text cut tf tm so iq Hf [] _ Ht). reflexivity. Qed.
Print Assumptions C194_error_page_refuted.
(** A body that ends after any complete events gives these events. *)
Theorem C194_short_body_refuted : forall T (N : Num T) D (strftime : D -> string) server cut tf tm so iq a fuel h l ds rs, fair_cut solid cut -> a_batch a = None ->
  heading h -> opening_ok l -> Forall doc_ok ds -> Forall safe (map plain_of_doc ds) -> apart (map plain_of_doc ds) -> match ds with DText _ :: _ => False | _ => True end ->
  snd (server (build_params strftime a)) = h ++ opening_text l ++ join (map xml (map plain_of_doc ds)) ->
  event_records tf tm so iq (docs_events ds) = Ok rs ->
  get_events_text strftime server cut tf tm so fuel iq a = Some (Records rs, [build_params strftime a]).
Proof.
  intros T N D strftime server cut tf tm so iq a fuel h l ds rs Hf Ha Hh Hl Hok HS HA Hd E Hr. unfold get_events_text. rewrite Ha, E. unfold parse_response.
  rewrite (C185_silently_short_refuted cut tf tm so true iq h l ds rs Hf Hh Hl Hok HS HA Hd); [reflexivity|].
  assert (Hev : Forall (fun e => doc_ok (DEvent e)) (docs_events ds)) by (clear - Hok; unfold docs_events; induction Hok; cbn [flat_map]; [constructor|]; apply Forall_app; split; [apply event_doc_ok; assumption|assumption]).
  rewrite event_records_map in Hr by exact Hev. rewrite parse_docs_list.
  - rewrite <- Hr. clear. unfold docs_events. induction ds as [|d ds IH]; [reflexivity|]. cbn [map flat_map]. rewrite !map_res_app, IH, events_merge. f_equal.
    generalize (events_of d) as m. induction m as [|e m IHm]; [reflexivity|]. cbn [map map_res]. rewrite IHm. reflexivity.
  - apply Forall_forall. intros d H. apply in_map_iff in H. destruct H as (d' & <- & H). apply merge_doc_ok. rewrite Forall_forall in Hok. apply Hok. exact H.
Qed.
Print Assumptions C194_short_body_refuted.

(** ** C195: a service that answers a selection without events with a document *)
(** With such a service every page has a body, and the search for the number of batches never ends. *)
Theorem C195_never_ends_refuted : forall T (N : Num T) D (strftime : D -> string) server cut tf tm so iq a bs, a_batch a = Some bs ->
  (forall p, fst (server p) = 200%Z /\ snd (server p) <> "") -> forall fuel, get_events_text strftime server cut tf tm so fuel iq a = None.
Proof.
  intros T N D strftime server cut tf tm so iq a bs Ha H fuel. unfold get_events_text. rewrite Ha. unfold batch_count.
  assert (G : forall p c, grow (probe_view server) fuel p bs c = None).
  { intros p. induction fuel as [|f IH]; intros c; [reflexivity|]. cbn [grow]. destruct (H (page_params p 1 (c * bs + 1))) as [H1 H2].
    assert (E : exists_with_offset (probe_view server (page_params p 1 (c * bs + 1))) = true).
    { unfold exists_with_offset, probe_view. cbn [r_status r_events]. rewrite H1. apply String.eqb_neq in H2. rewrite H2. reflexivity. }
    rewrite E, IH. reflexivity. }
  rewrite G. reflexivity.
Qed.
Print Assumptions C195_never_ends_refuted.
