(** * C187: ids that the reader does not accept *)
From Coq Require Import List Bool String Ascii Arith Lia ZArith QArith.
From Verif Require Import Base Dict Utils_model QuakeML_model Spec_QuakeML QuakeML_proofs Props_QuakeML Props_QuakeML2 Props_QuakeML3 Spec_Export Export_model Export_proofs Props_Export Props_Export2 Spec_Xml Xml_model Xml_proofs Recut_proofs Xml_cut Props_Xml Props_Xml2 ExportText_model ExportText_proofs Props_ExportText.
Import ListNotations.
Open Scope string_scope.

Section Broken.
  Variable cut : list sax -> string -> list string.
  Notation run := (Xml_model.run cut).
  Notation step := (Xml_model.step cut).
  Lemma name_start_letter c : letter c = true -> Ascii.eqb c SEMI = false /\ Ascii.eqb c HASH = false /\ name_start c = true.
  Proof. intros H. pose proof (by_cases (fun c => implb (letter c) (negb (Ascii.eqb c SEMI) && negb (Ascii.eqb c HASH) && name_start c)) eq_refl c) as K. cbv beta in K. rewrite H in K. cbn [implb] in K. rewrite !andb_true_iff, !negb_true_iff in K. tauto. Qed.
  Lemma name_char_letter c : name_letter c = true -> Ascii.eqb c SEMI = false /\ Ascii.eqb c HASH = false.
  Proof. intros H. pose proof (by_cases (fun c => implb (name_letter c) (negb (Ascii.eqb c SEMI) && negb (Ascii.eqb c HASH))) eq_refl c) as K. cbv beta in K. rewrite H in K. cbn [implb] in K. rewrite !andb_true_iff, !negb_true_iff in K. tauto. Qed.
  Lemma no_name_char c : name_letter c = false -> (32 <= code c < 127)%nat -> Ascii.eqb c CR = false /\ illegal c = false /\ name_start c = false /\ name_char c = false.
  Proof.
    intros H R. pose proof (by_cases (fun c => implb (negb (name_letter c) && (32 <=? code c) && (code c <? 127))%nat (negb (Ascii.eqb c CR) && negb (illegal c) && negb (name_start c) && negb (name_char c))) eq_refl c) as K. cbv beta in K.
    rewrite H in K. rewrite (proj2 (Nat.leb_le 32 (code c))), (proj2 (Nat.ltb_lt (code c) 127)) in K by lia. cbn [implb andb negb] in K. rewrite !andb_true_iff, !negb_true_iff in K. tauto.
  Qed.
  Lemma run_ref n : forall t a k v r s, x_mode s = ARef t a k QUOT v r -> r <> "" -> (match r with String h _ => Ascii.eqb h HASH = false | _ => False end) -> all name_letter n = true -> run s n = Go (mkx (ARef t a k QUOT v (r ++ n)) (x_pend s) (x_open s) (x_root s) (x_out s)).
  Proof.
    induction n as [|c n IH]; intros t a k v r s Hm Hr Hh Hn; [cbn; rewrite app_nil_s; destruct s; cbn in *; congruence|]. cbn [all] in Hn. apply andb_true_iff in Hn. destruct Hn as [Hc Hn].
    destruct (name_letter_ok c Hc) as (E1 & E2 & E3). destruct (name_char_letter c Hc) as (E4 & E5). cbn [Xml_model.run]. unfold Xml_model.step. rewrite E2, Hm, E4. replace (ref_next r c) with true by (destruct r as [|h r]; [congruence|]; cbn [ref_next]; replace (Ascii.eqb h HASH) with false by (symmetry; exact Hh); rewrite E3; reflexivity). unfold goto.
    rewrite (IH t a k v (snoc r c)); [|reflexivity|intros K; pose proof (snoc_nonempty r c); rewrite K in *; discriminate|destruct r; [contradiction|exact Hh]|exact Hn]. cbn [x_pend x_open x_root x_out]. rewrite snoc_app. reflexivity.
  Qed.
  Lemma run_name_ref n t a k v s : x_mode s = ARef t a k QUOT v "" -> n = "" \/ is_name n = true -> run s n = Go (mkx (ARef t a k QUOT v n) (x_pend s) (x_open s) (x_root s) (x_out s)).
  Proof.
    intros Hm [->|Hn]; [cbn; destruct s; cbn in *; congruence|]. destruct n as [|c n]; [discriminate|]. cbn [is_name] in Hn. apply andb_true_iff in Hn. destruct Hn as [Hc Hn].
    destruct (letter_ok c Hc) as (E1 & E2 & E3 & _). destruct (name_start_letter c Hc) as (E4 & E5 & _). cbn [Xml_model.run]. unfold Xml_model.step. rewrite E2, Hm, E4. cbn [ref_next]. rewrite E3. unfold goto. cbn [orb].
    rewrite (run_ref n t a k v (snoc "" c)); [|reflexivity|discriminate|exact E5|exact Hn]. reflexivity.
  Qed.
  (** an attribute value that breaks the document *)
  Lemma no_cr_app a b : no_cr a -> no_cr b -> no_cr (a ++ b).
  Proof. unfold no_cr. intros Ha Hb. induction a as [|c a IH]; [exact Hb|]. cbn [all] in Ha. apply andb_true_iff in Ha. destruct Ha as [H1 H2]. cbn [append all]. rewrite H1. apply IH. exact H2. Qed.
  Lemma no_cr_chars (f : ascii -> bool) s : (forall c, f c = true -> Ascii.eqb c CR = false) -> all f s = true -> no_cr s.
  Proof. intros Hf. unfold no_cr. induction s as [|c s IH]; intros H; [reflexivity|]. cbn [all] in H. apply andb_true_iff in H. destruct H as [H1 H2]. cbn [all]. rewrite (Hf c H1), (IH H2). reflexivity. Qed.
  Lemma no_cr_name n : n = "" \/ is_name n = true -> no_cr n.
  Proof.
    intros [->|H]; [reflexivity|]. destruct n as [|c n]; [discriminate|]. cbn [is_name] in H. apply andb_true_iff in H. destruct H as [H1 H2]. apply (no_cr_app (String c "") n).
    - unfold no_cr. cbn [all]. destruct (letter_ok c H1) as (E & _). rewrite E. reflexivity.
    - apply (no_cr_chars name_letter); [|exact H2]. intros d Hd. apply (name_letter_ok d Hd).
  Qed.
  Lemma run_breaks s : breaks s -> exists pre post, s = pre ++ post /\ no_cr pre /\ forall t a k x rest, x_mode x = AVal t a k QUOT "" -> run x (pre ++ rest) = Bad (x_out x).
  Proof.
    intros (u & v & -> & Hu & Hv).
    assert (Cu : no_cr u) by (apply (no_cr_chars id_char); [intros c Hc; apply (id_char_ok c Hc)|exact Hu]).
    destruct Hv as [(w & ->)|(n & y & w & -> & Hn & N1 & N2 & N3 & N4)].
    - exists (u ++ "<"), w. split; [rewrite app_assoc_s; reflexivity|]. split; [apply no_cr_app; [exact Cu|reflexivity]|]. intros t a k x rest Hm. rewrite app_assoc_s, run_app_s, (run_value cut u t a k "" x Hm Hu). reflexivity.
    - destruct (no_name_char y N1 N4) as (E1 & E2 & E3 & E4). exists (u ++ "&" ++ n ++ String y ""), w. split; [rewrite !app_assoc_s; reflexivity|]. split.
      { apply no_cr_app; [exact Cu|]. apply no_cr_app; [reflexivity|]. apply no_cr_app; [apply no_cr_name; exact Hn|]. unfold no_cr. cbn [all]. rewrite E1. reflexivity. }
      intros t a k x rest Hm. rewrite app_assoc_s, run_app_s, (run_value cut u t a k "" x Hm Hu). cbn [append]. rewrite app_assoc_s. cbn [append Xml_model.run]. set (x1 := mkx (AVal t a k QUOT u) (x_pend x) (x_open x) (x_root x) (x_out x)).
      change (step x1 "&") with (Go (mkx (ARef t a k QUOT u "") (x_pend x) (x_open x) (x_root x) (x_out x))). cbv iota beta. rewrite run_app_s, (run_name_ref n t a k u); [|reflexivity|exact Hn]. cbn [append Xml_model.run x_pend x_open x_root x_out].
      unfold Xml_model.step. rewrite E2. cbn [x_mode]. apply Ascii.eqb_neq in N2. apply Ascii.eqb_neq in N3. change SEMI with ";"%char. rewrite N2.
      replace (ref_next n y) with false; [reflexivity|]. destruct n as [|h n]; cbn [ref_next]; [change HASH with "#"%char; rewrite E3, N3; reflexivity|].
      destruct Hn as [Hn|Hn]; [discriminate|]. cbn [is_name] in Hn. apply andb_true_iff in Hn. destruct Hn as [Hh _]. destruct (name_start_letter h Hh) as (_ & -> & _). symmetry. exact E4.
  Qed.
End Broken.

Lemma chosen_split r1 row r2 : complete row = true -> exists L, chosen (app r1 (row :: r2)) = app (chosen r1) ((List.length r1, row) :: L).
Proof.
  intros H. unfold chosen. rewrite app_length. rewrite seq_app.
  assert (C : forall {A B} (a b : list A) (c d : list B), List.length a = List.length c -> combine (app a b) (app c d) = app (combine a c) (combine b d)).
  { induction a as [|x a IH]; intros b [|y c] d E; try discriminate; [reflexivity|]. cbn [app combine]. f_equal. apply IH. cbn in E. congruence. }
  rewrite C by apply seq_length. rewrite filter_app. cbn [plus List.length seq combine filter]. cbn [snd]. rewrite H. eexists. reflexivity.
Qed.
Lemma pairs_app int_text agencyID author columns fresh A B : pairs int_text agencyID author columns fresh (app A B) = app (pairs int_text agencyID author columns fresh A) (pairs int_text agencyID author columns fresh B).
Proof. unfold pairs. rewrite map_app, flat_map_app. reflexivity. Qed.
Lemma join_app a b : join (app a b) = join a ++ join b.
Proof. induction a as [|x a IH]; [reflexivity|]. cbn [app]. rewrite !join_cons, IH, app_assoc_s. reflexivity. Qed.

Definition front : opening :=
  [("q:quakeml", [("xmlns", "http://quakeml.org/xmlns/bed/1.2"); ("xmlns:q", "http://quakeml.org/xmlns/quakeml/1.2")], nl 4);
   ("eventParameters", [("publicID", "smi:org.gfz-potsdam.de/geofon/EventParameters")], " " ++ nl 8 ++ " " ++ nl 8)].
Lemma front_ok : opening_ok front.
Proof.
  split; [discriminate|]. repeat constructor; try (cbn; intuition discriminate); apply no_marker; reflexivity.
Qed.

(** "The string that to_quakeml returns can be read back" is false: one event id with an ampersand
    in it -- an id like quakeml:...?eventid=x&format=quakeml -- or a [<], and none of the events can
    be read; the rows before it are flawless, those after it are arbitrary. *)
Theorem C187_text_unreadable_refuted : forall cut tf tm so iq int_text agencyID author columns fresh r1 row r2 id, fair_cut solid cut -> arranges so ->
  good_table columns r1 -> (forall s, presentable (int_text s)) -> (forall i c, presentable (fresh i c)) ->
  writable_table columns r1 -> writable agencyID -> writable author -> (forall s, writable (int_text s)) -> (forall i c, writable (fresh i c)) ->
  row_complete row -> In "eventID" columns -> dget row "eventID" = Some (Val id) -> breaks id ->
  exists text, to_quakeml_text int_text agencyID author columns fresh (app r1 (row :: r2)) = Ok text /\
    parse_quakeml_file cut tf tm so true iq text = ParseError /\ parse_quakeml_string cut tf tm so true iq text = ParseError.
Proof.
  intros cut tf tm so iq int_text agencyID author columns fresh r1 row r2 id Hcut Hso Hg Hi Hf [Wc Wr] Wag Wau Wi Wf Hrow Hin Hid Hb.
  destruct (C150_round_trip tf tm so iq int_text agencyID author columns fresh r1 Hso Hg Hi Hf) as (docs & rows' & records & E1 & _ & E3 & _).
  rewrite (parse_exported _ _ _ _ _ _ _ _ _ _ _ _ E1) in E3.
  assert (Hreq : check_required_cols columns catalog_columns = true). { unfold to_quakeml in E1. destruct (check_required_cols _ _); [reflexivity|discriminate]. }
  apply complete_ok in Hrow. destruct (chosen_split r1 row r2 Hrow) as (L & EL).
  set (PS := pairs int_text agencyID author columns fresh (chosen r1)).
  assert (HW : Forall (fun p => cells_writable (dget (snd p))) (chosen r1)). { apply Forall_forall. intros p Hp. apply chosen_In in Hp. rewrite Forall_forall in Wr. intros c s. apply (Wr _ Hp). }
  assert (HS : Forall safe (map plain_of_doc PS)) by (apply pairs_safe; auto).
  assert (HA : apart (map plain_of_doc PS)) by (apply pairs_apart).
  assert (Hne : match PS with DText _ :: _ => False | _ => True end) by (unfold PS, pairs; destruct (chosen r1); exact I).
  destruct (opened cut tf tm so true iq Hcut xml_declaration front PS declaration_heading front_ok HS HA Hne) as (s & k & R & M & O & ds' & o' & K1 & K2 & K3).
  set (t1 := xml_declaration ++ opening_text front ++ join (map xml (map plain_of_doc PS))) in *.
  assert (T : exists rest, to_quakeml_text int_text agencyID author columns fresh (app r1 (row :: r2)) = Ok (t1 ++ "<" ++ "event publicID=" ++ String quote (id ++ rest))).
  { unfold to_quakeml_text. rewrite Hreq. fold (chosen (app r1 (row :: r2))). rewrite EL. fold (lines int_text agencyID author columns fresh). 
    unfold document_lines. fold (pairs int_text agencyID author columns fresh (app (chosen r1) ((List.length r1, row) :: L))). rewrite pairs_app. fold PS.
    assert (P2 : exists rest, join (map xml (map plain_of_doc (pairs int_text agencyID author columns fresh ((List.length r1, row) :: L)))) = "<" ++ "event publicID=" ++ String quote (id ++ rest)).
    { unfold pairs. cbn [map flat_map app plain_of_doc]. rewrite join_cons. unfold lines at 1. cbn [fst snd event_lines ev_attrs xml]. unfold id_of_row at 1. rewrite (proj2 (mem_iff _ _) Hin), Hid. cbn [text_of]. unfold xml_attrs. cbn [map]. rewrite join_cons. unfold xml_attr at 1. cbn [fst snd]. rewrite !app_assoc_s. cbn [append]. rewrite !app_assoc_s. eexists. reflexivity. }
    destruct P2 as (rest & P2). 
    exists (rest ++ "</eventParameters>" ++ nl 0 ++ "</q:quakeml>"). f_equal. unfold t1. cbn [plain_of_doc map xml]. rewrite !map_app, !join_cons, join_app, P2. unfold opening_text, front. cbn [map fst snd]. rewrite !join_cons. change (join []) with "". rewrite !app_nil_s, !app_assoc_s. cbn [append]. rewrite !app_assoc_s. reflexivity. }
  destruct T as (rest & T). exists (t1 ++ "<" ++ "event publicID=" ++ String quote (id ++ rest)). split; [exact T|].
  assert (RD : reading_of cut (t1 ++ "<" ++ "event publicID=" ++ String quote (id ++ rest)) = Fault (x_out s)).
  { destruct (run_breaks cut id Hb) as (pre & post & -> & Cp & HB). unfold reading_of. rewrite norm_app by (eapply run_no_cr; exact R). rewrite run_app_s, R. rewrite app_assoc_s.
    change ("<" ++ "event publicID=" ++ String quote (pre ++ post ++ rest)) with (("<event publicID=" ++ String quote "") ++ pre ++ post ++ rest). rewrite norm_app by reflexivity. rewrite norm_app by exact Cp.
    destruct s as [m pend open root out]. cbn [x_mode x_open] in *. subst m. destruct open as [|mm op]; [contradiction|].
    match goal with |- finish cut ?X = _ => change X with (Xml_model.run cut (mkx (AVal "event" [] "publicID" QUOT "") pend (mm :: op) root out) (pre ++ norm false (post ++ rest))) end.
    rewrite (HB "event" [] "publicID"); reflexivity. }
  assert (HO : exists hh, handle_all tf tm so true iq (h_init []) (Xml_model.flush cut s) = Ok hh).
  { rewrite K3, run_app, K1. cbn [rbind]. pose proof (parse_rc_list tf tm so true iq PS ds' (pairs_ok _ _ _ _ _ _) K2) as Q. unfold QuakeML_model.parse_quakeml at 1 in Q. destruct (handle_all tf tm so true iq (h_init []) (flat_map ser_doc ds')) as [hh|e]; [eauto|exfalso].
    rewrite parse_docs_list in Q by (apply Forall_map; eapply Forall_impl; [|apply pairs_ok]; intros d; apply merge_doc_ok).
    assert (Mg : flat_map events_of (map merge_doc PS) = map merge_event (flat_map events_of PS)) by (clear; induction PS as [|d ds IH]; [reflexivity|]; cbn [map flat_map]; rewrite map_app, events_merge, IH; reflexivity).
    rewrite Mg in Q. unfold PS in Q. rewrite pairs_events, records_lines, E3 in Q. discriminate. }
  assert (HP : exists hh, handle_all tf tm so true iq (h_init []) (x_out s) = Ok hh).
  { destruct HO as (hh & HO). unfold Xml_model.flush in HO. destruct (x_pend s =? ""); [eauto|]. rewrite run_app in HO. destruct (handle_all tf tm so true iq (h_init []) (x_out s)) as [h1|e]; [eauto|discriminate HO]. }
  clear HO. destruct HP as (hh & HO). unfold parse_quakeml_file, parse_quakeml_string. rewrite RD, !(handled_ok tf tm so true iq _ _ _ HO).
  assert (NE : (t1 ++ "<" ++ "event publicID=" ++ String quote (id ++ rest) =? "") = false) by (unfold t1; reflexivity). rewrite NE. split; reflexivity.
Qed.
Print Assumptions C187_text_unreadable_refuted.
