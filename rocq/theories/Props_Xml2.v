(** * C184: documents that end too soon *)
From Coq Require Import List Bool String Ascii Arith Lia ZArith QArith.
From Verif Require Import Base Dict QuakeML_model Spec_QuakeML QuakeML_proofs Props_QuakeML Spec_Export Spec_Xml Xml_model Xml_proofs Recut_proofs Xml_cut Props_Xml.
Import ListNotations.
Open Scope string_scope.

Definition begins (a b : list pd) : Prop := exists l, b = app a l.
Section Cut.
  Variable cut : list sax -> string -> list string.
  Context (tf : option string -> res Q) (tm : option string -> res Z) (so : list (option string) -> list (option string)) (ia iq : bool).
  Notation hrun := (handle_all tf tm so ia iq).
  Notation file := (parse_quakeml_file cut tf tm so ia iq).
  Notation str := (parse_quakeml_string cut tf tm so ia iq).
  Lemma handled_records es k rs : handled tf tm so ia iq es k = Records rs -> exists h, hrun (h_init []) es = Ok h /\ k (h_cat h) = Records rs.
  Proof. unfold handled, QuakeML_model.parse_quakeml. destruct (hrun (h_init []) es) as [h|]; cbn [rmap rbind]; [|discriminate]. intros H. exists h. auto. Qed.
  Lemma handled_ok es k h : hrun (h_init []) es = Ok h -> handled tf tm so ia iq es k = k (h_cat h).
  Proof. intros H. unfold handled, QuakeML_model.parse_quakeml. rewrite H. reflexivity. Qed.
  Lemma file_records t rs : file t = Records rs -> exists es h, passed (reading_of cut t) = Some es /\ hrun (h_init []) es = Ok h /\ rs = h_cat h.
  Proof.
    unfold parse_quakeml_file. destruct (reading_of cut t) as [es|es|es|]; cbn [passed]; intros H; try discriminate.
    - destruct (handled_records _ _ _ H) as (h & E & [= <-]). eauto.
    - destruct (handled_records _ _ _ H) as (h & E & [= <-]). eauto.
    - destruct (handled_records _ _ _ H) as (h & E & K). discriminate.
  Qed.
  Lemma str_records t rs : t <> "" -> str t = Records rs -> exists es h, reading_of cut t = Whole es /\ hrun (h_init []) es = Ok h /\ rs = h_cat h.
  Proof.
    intros Ht. unfold parse_quakeml_string. rewrite (proj2 (String.eqb_neq t "") Ht). destruct (reading_of cut t) as [es|es|es|]; intros H; try discriminate; destruct (handled_records _ _ _ H) as (h & E & K); [|discriminate|discriminate]. injection K as <-. eauto.
  Qed.
  (** after the root element only white space, comments and processing instructions can follow *)
  Definition outside (s : xst) : Prop := x_open s = [] /\ x_root s = true /\ x_pend s = "" /\
    match x_mode s with Text _ | Lt | Bang | Bang1 | Comment | Comment1 | Comment2 | Pi _ | PiEnd | PiData | PiQ => True | _ => False end.
  Lemma step_outside s c s' : outside s -> Xml_model.step cut s c = Go s' -> outside s' /\ x_out s' = x_out s.
  Proof.
    destruct s as [m p op ro ou]. intros (A & B & C & D). cbn [x_open x_root x_pend x_mode] in *. subst. unfold Xml_model.step. destruct (illegal c); [discriminate|]. cbn [x_mode].
    unfold in_text, in_lt, in_bang, in_pi, goto, pi_tag, flush. cbn [x_mode x_open x_root x_pend x_out]. change ("" =? "") with true. cbn [negb]. rewrite ?andb_false_r.
    destruct m; try contradiction; intros E; repeat match type of E with
      | Go _ = Go _ => injection E as <-
      | (if ?b then _ else _) = _ => destruct b
      end; try discriminate; unfold outside; cbn [x_open x_root x_pend x_mode x_out]; repeat split; repeat match goal with |- context [if ?b then _ else _] => destruct b end; exact I.
  Qed.
  Lemma run_outside u : forall s s', outside s -> Xml_model.run cut s u = Go s' -> outside s' /\ x_out s' = x_out s.
  Proof.
    induction u as [|c u IH]; intros s s' Hs H; cbn [Xml_model.run] in H; [injection H as <-; auto|]. destruct (Xml_model.step cut s c) as [s1| |] eqn:E; try discriminate.
    destruct (step_outside _ _ _ Hs E) as [A B]. destruct (IH _ _ A H) as [A' B']. split; [exact A'|congruence].
  Qed.
  Lemma after_root u : forall k p o s', x_mode s' <> Lt -> Xml_model.run cut (mkx (Text k) p [] true o) u = Go s' -> blank u \/ occurs "<!" u \/ occurs "<?" u.
  Proof.
    induction u as [|c u IH]; intros k p o s' Hm H; [left; reflexivity|]. cbn [Xml_model.run] in H. unfold Xml_model.step in H. destruct (illegal c); [discriminate|]. cbn [x_mode] in H. unfold in_text in H. destruct (Ascii.eqb_spec c LT) as [->|].
    - destruct u as [|d u]; cbn [Xml_model.run goto] in H; [injection H as <-; destruct (Hm eq_refl)|]. unfold Xml_model.step in H. destruct (illegal d); [discriminate|]. cbn [x_mode] in H. unfold in_lt in H. cbn [x_open x_root] in H.
      destruct (Ascii.eqb_spec d BANG) as [->|]; [right; left; exists "", u; reflexivity|]. destruct (Ascii.eqb_spec d QM) as [->|]; [right; right; exists "", u; reflexivity|].
      destruct (Ascii.eqb d SLASH); [discriminate|]. destruct (name_start d); discriminate.
    - cbn [x_open] in H. destruct (xspace c) eqn:X; [|discriminate]. unfold goto in H. cbn [x_pend x_open x_root x_out] in H. destruct (IH _ _ _ _ Hm H) as [B|[B|B]].
      + left. unfold blank. cbn [all]. apply andb_true_iff. split; [exact X|exact B].
      + right. left. apply (occurs_suffix _ (String c "") u). exact B.
      + right. right. apply (occurs_suffix _ (String c "") u). exact B.
  Qed.
  Lemma blank_norm u : forall f, blank (norm f u) -> white_space u.
  Proof.
    unfold blank, white_space. induction u as [|c u IH]; intros f H; [reflexivity|]. cbn [norm] in H. cbn [all]. destruct (Ascii.eqb_spec c CR) as [->|]; [|destruct (f && Ascii.eqb c LF) eqn:E].
    - cbn [all] in H. apply andb_true_iff in H. destruct H as [_ H]. rewrite (IH _ H). reflexivity.
    - apply andb_true_iff in E. destruct E as [_ E]. apply Ascii.eqb_eq in E. subst c. rewrite (IH _ H). reflexivity.
    - cbn [all] in H. apply andb_true_iff in H. destruct H as [H1 H]. rewrite (IH _ H). rewrite H1. reflexivity.
  Qed.
  Lemma occurs_norm a b u : a <> LF -> b <> LF -> forall f, occurs (String a (String b "")) (norm f u) -> occurs (String a (String b "")) u.
  Proof.
    intros Ha Hb. induction u as [|c u IH]; intros f H; [exact H|]. cbn [norm] in H. assert (Sf : occurs (String a (String b "")) u -> occurs (String a (String b "")) (String c u)) by apply (occurs_suffix _ (String c "") u).
    assert (Tl : forall d v, d <> a -> occurs (String a (String b "")) (String d v) -> occurs (String a (String b "")) v).
    { intros d v Hd (x & y & E). destruct x as [|e x]; cbn in E; [injection E; intros; congruence|]. injection E; intros E1 E2. exists x, y. exact E1. }
    destruct (Ascii.eqb c CR); [apply Sf, (IH true), (Tl LF); [congruence|exact H]|]. destruct (f && Ascii.eqb c LF); [apply Sf, (IH false), H|].
    destruct H as (x & y & E). destruct x as [|e x]; cbn in E; injection E; intros E1 E2; [|apply Sf, (IH false); exists x, y; exact E1]. subst c.
    destruct u as [|d u]; [discriminate|]. cbn [norm andb] in E1. destruct (Ascii.eqb_spec d CR) as [->|]; injection E1; intros E3 E4; [congruence|]. subst d. exists "", u. reflexivity.
  Qed.
  Hypothesis cut_join : forall o s, join (cut o s) = s.
  Lemma file_prefix t u rs : file (t ++ u) = Records rs -> file t = ParseError \/ exists rs', file t = Records rs' /\ begins rs' rs.
  Proof.
    intros H. destruct (file_records _ _ H) as (es & h & P & E & ->). destruct (prefix_handled cut tf tm so ia iq cut_join t u es h P E) as (s & R & C & (h1 & H1 & l1 & L1) & (h2 & H2 & l2 & L2)).
    unfold parse_quakeml_file. unfold reading_of. rewrite R. destruct (whole_flush cut s C) as [N|N].
    - left. destruct (finish cut (Go s)) as [es'|es'|es'|] eqn:F; cbn [passed] in N; try discriminate.
      + cbn [finish] in F. destruct (x_mode s); try (destruct (x_open s), (x_root s); discriminate F); injection F as <-; rewrite (handled_ok _ _ _ H1); reflexivity.
      + cbn [finish] in F. destruct (x_mode s); try discriminate; destruct (x_open s), (x_root s); discriminate.
    - right. exists (h_cat h2). split; [|exists l2; exact L2]. destruct (finish cut (Go s)) as [es'|es'|es'|] eqn:F; cbn [passed] in N; try discriminate; injection N as ->; apply handled_ok; exact H2.
  Qed.
  Lemma norm_nonempty t : t <> "" -> norm false t <> "".
  Proof. destruct t as [|c t]; [congruence|]. intros _. cbn [norm andb]. destruct (Ascii.eqb c CR); discriminate. Qed.
  Lemma str_prefix t u rs : str (t ++ u) = Records rs -> t <> "" -> str t = ParseError \/ (str t = Records rs /\ (white_space u \/ occurs "<!" u \/ occurs "<?" u)).
  Proof.
    intros H Ht. assert (Htu : t ++ u <> "") by (destruct t; [contradiction|discriminate]). destruct (str_records _ _ Htu H) as (es & h & P & E & ->).
    assert (P' : passed (reading_of cut (t ++ u)) = Some es) by (rewrite P; reflexivity).
    destruct (prefix_handled cut tf tm so ia iq cut_join t u es h P' E) as (s & R & C & (h1 & H1 & l1 & L1) & (h2 & H2 & l2 & L2)).
    unfold parse_quakeml_string. rewrite (proj2 (String.eqb_neq t "") Ht). unfold reading_of. rewrite R.
    assert (NW : forall o, finish cut (Go s) = Whole o -> o = es /\ (white_space u \/ occurs "<!" u \/ occurs "<?" u)).
    { intros o F. cbn [finish] in F. unfold reading_of in P. destruct (norm_split t false) as (f' & Nm). rewrite Nm, run_app_s, R in P. destruct (run cut s (norm f' u)) as [s'| |] eqn:U; try discriminate. assert (Hm : x_mode s' <> Lt) by (intros K; cbn [finish] in P; rewrite K in P; discriminate).
      destruct s as [m p op ro ou]. cbn [x_mode x_open x_root x_out] in F. destruct m; try discriminate; destruct op, ro; try discriminate.
      - (* the first character has not been read: t is empty *)
        exfalso. apply norm_nonempty in Ht. revert R Ht. generalize (norm false t). clear. intros t R Ht. destruct t as [|c t]; [contradiction|]. cbn [Xml_model.run] in R. destruct (step cut x_init c) as [s1| |] eqn:E; try discriminate.
        assert (B : x_mode s1 <> Begin). { unfold Xml_model.step, x_init, in_text in E. cbn [x_mode x_open] in E. destruct (illegal c); [discriminate|]. destruct (Ascii.eqb c LT); [injection E as <-; discriminate|]. destruct (xspace c); [injection E as <-; discriminate|discriminate]. }
        clear E Ht. revert s1 B R. induction t as [|d t IH]; intros s1 B R; cbn [Xml_model.run] in R; [injection R as ->; apply B; reflexivity|]. destruct (step cut s1 d) as [s2| |] eqn:E; try discriminate. apply (IH s2); [|exact R].
        clear - E B. unfold Xml_model.step in E. destruct (illegal d); [discriminate|]. unfold add_attr, in_text, in_lt, in_bang, in_cdata, in_pi, goto, start_tag, empty_tag, end_tag, pi_tag, add_text in E.
        destruct (x_mode s1) eqn:M; try contradiction; repeat match type of E with
          | (if ?b then _ else _) = _ => destruct b
          | match ?x with _ => _ end = _ => destruct x
          end; try discriminate; injection E as <-; cbn [x_mode]; try discriminate; repeat match goal with |- context [if ?b then _ else _] => destruct b end; discriminate.
      - injection F as <-. assert (Pe : p = "") by (destruct C as [C|C]; [exact C|destruct C; reflexivity]). subst p.
        destruct (run_outside _ (mkx (Text k) "" [] true ou) s' ltac:(repeat split) U) as [(O1 & O2 & O3 & O4) O5]. cbn [x_out] in O5. split.
        + cbn [finish] in P. rewrite O1, O2 in P. destruct (x_mode s'); try discriminate; congruence.
        + destruct (after_root _ _ _ _ _ Hm U) as [B|[B|B]]; [left; eapply blank_norm; exact B|right; left|right; right]; (eapply occurs_norm; [| |exact B]; discriminate). }
    assert (K : forall es', finish cut (Go s) = Short es' -> handled tf tm so ia iq es' (fun _ => ParseError) = ParseError).
    { intros es' F. destruct (whole_flush cut s C) as [N|N]; rewrite F in N; cbn [passed] in N; [discriminate|]. injection N as ->. rewrite (handled_ok _ _ _ H2). reflexivity. }
    destruct (finish cut (Go s)) as [es'|es'|es'|] eqn:F.
    - right. destruct (NW es' eq_refl) as [-> Q]. split; [apply handled_ok; exact E|exact Q].
    - left. apply K. reflexivity.
    - left. cbn [finish] in F. destruct (x_mode s); try (destruct (x_open s), (x_root s); discriminate F); injection F as <-; rewrite (handled_ok _ _ _ H1); reflexivity.
    - cbn [finish] in F. destruct (x_mode s); try discriminate; destruct (x_open s), (x_root s); discriminate.
  Qed.

  (** ** complete events *)
  Hypothesis Hfair : fair_cut solid cut.
  Lemma hrun_idle o h : forall es, hrun (h_init []) o = Ok h -> h = h_init [] -> hrun (h_init []) (app o es) = hrun (h_init []) es.
  Proof. intros es H ->. rewrite run_app, H. reflexivity. Qed.
  (** the tags that open the document *)
  Lemma run_opening l : forall k w open root o rest, (open = [] -> root = false) -> hrun (h_init []) o = Ok (h_init []) -> l <> [] -> Forall (fun x => is_name (fst (fst x)) = true /\ reserved (fst (fst x)) = false /\ safe_attrs (snd (fst x)) /\ safe_text (snd x)) l ->
    exists k' w' open' o', open' <> [] /\ hrun (h_init []) o' = Ok (h_init []) /\ Xml_model.run cut (mkx (Text k) w open root o) (opening_text l ++ rest) = Xml_model.run cut (mkx (Text k') w' open' true o') rest.
  Proof.
    induction l as [|[[t a] b] l IH]; intros k w open root o rest Hr Ho Hl HF; [contradiction|]. pose proof (Forall_inv HF) as (F1 & F2 & F3 & F4). pose proof (Forall_inv_tail HF) as F5. cbn [fst snd] in F1, F2, F3, F4. unfold opening_text. cbn [map fst snd]. rewrite join_cons, !app_assoc_s.
    change ("<" ++ ?x) with (String "<" x). cbn [Xml_model.run]. rewrite step_lt. rewrite (run_start cut t a); [|exact F1|exact F3|exact Hr].
    set (o1 := app (app o (map Chars (flushed cut o w))) [Start t a]). assert (Ho1 : hrun (h_init []) o1 = Ok (h_init [])).
    { unfold o1. rewrite !run_app, Ho. cbn [rbind]. rewrite run_outer_chars. cbn [rbind handle_all QuakeML_model.handle]. unfold special. unfold reserved in F2. rewrite F2. reflexivity. }
    destruct F4 as [T1 T2]. destruct (run_text cut b 0 "" o1 (t :: open) true ltac:(discriminate) T1 T2) as (k1 & E1).
    rewrite run_app_s, E1. cbn [append]. destruct l as [|y l].
    - exists k1, b, (t :: open), o1. split; [discriminate|]. split; [exact Ho1|]. reflexivity.
    - destruct (IH k1 b (t :: open) true o1 rest) as (k' & w' & open' & o' & A1 & A2 & A3); [discriminate|exact Ho1|discriminate|exact F5|]. exists k', w', open', o'. split; [exact A1|]. split; [exact A2|exact A3].
  Qed.
  Lemma docs_back ds : forall l', Forall2 (recut solid) (map plain_of_doc ds) l' -> exists ds', map plain_of_doc ds' = l' /\ Forall2 rcd ds ds'.
  Proof. intros l' H. apply (list_back plain_of_doc (recut solid) rcd ds l' H). apply Forall_forall. intros d _ y. apply doc_back. Qed.
  Lemma parse_docs_list ds : Forall doc_ok ds -> QuakeML_model.parse_quakeml tf tm so ia iq (flat_map ser_doc ds) = map_res (record tf tm so ia iq) (flat_map events_of ds).
  Proof.
    intros Hok. unfold QuakeML_model.parse_quakeml.
    assert (K : forall l cat, Forall doc_ok l -> hrun (h_init cat) (flat_map ser_doc l) = let? ds := map_res (record tf tm so ia iq) (flat_map events_of l) in Ok (h_init (app cat ds))).
    { induction l as [|d l IH]; intros cat H; [cbn; rewrite app_nil_r; reflexivity|]. inversion_clear H as [|? ? H1 H2]. cbn [flat_map]. rewrite run_app, run_doc by exact H1. rewrite map_res_app.
      destruct (map_res _ (events_of d)) as [ds'|]; cbn [rbind]; [|reflexivity]. rewrite IH by exact H2. destruct (map_res _ (flat_map events_of l)); cbn [rbind]; [rewrite app_assoc; reflexivity|reflexivity]. }
    rewrite K by exact Hok. destruct (map_res _ (flat_map events_of ds)); reflexivity.
  Qed.
  Lemma parse_rc_list ds ds' : Forall doc_ok ds -> Forall2 rcd ds ds' -> QuakeML_model.parse_quakeml tf tm so ia iq (flat_map ser_doc ds') = QuakeML_model.parse_quakeml tf tm so ia iq (flat_map ser_doc (map merge_doc ds)).
  Proof.
    intros Hok HF. rewrite !parse_docs_list.
    - assert (E : Forall2 rce (flat_map events_of ds) (flat_map events_of ds')) by (clear Hok; induction HF; [constructor|]; cbn [flat_map]; apply Forall2_app; [apply events_rc; assumption|assumption]).
      assert (M : flat_map events_of (map merge_doc ds) = map merge_event (flat_map events_of ds)) by (clear; induction ds as [|d ds IH]; [reflexivity|]; cbn [map flat_map]; rewrite map_app, events_merge, IH; reflexivity).
      rewrite M. clear M. induction E as [|e e' l l' He _ IH]; [reflexivity|]. cbn [map map_res]. rewrite (record_rc _ _ _ _ _ e e' He), IH. reflexivity.
    - apply Forall_map. eapply Forall_impl; [|exact Hok]. intros d. apply merge_doc_ok.
    - clear - Hok HF. induction HF; [constructor|]. inversion_clear Hok. constructor; [eapply rcd_ok; eassumption|auto].
  Qed.
  Lemma safe_forall l : Forall safe l -> fold_right (fun c r => safe c /\ r) True l.
  Proof. induction 1; [exact I|split; assumption]. Qed.
  Lemma step_to_text s s' : Xml_model.step cut s "<" = Go s' -> x_mode s' = Lt -> (exists k, x_mode s = Text k) /\ x_open s' = x_open s /\ Xml_model.flush cut s' = Xml_model.flush cut s.
  Proof.
    unfold Xml_model.step. change (illegal "<") with false. cbv iota. change (Ascii.eqb "<" LT) with true. change (name_char "<") with false. change (xspace "<") with false.
    unfold add_attr, in_text, in_lt, in_bang, in_cdata, in_pi, goto, start_tag, empty_tag, end_tag, pi_tag, add_text. change (Ascii.eqb "<" LT) with true. change (name_start "<") with false.
    destruct (x_mode s); intros E M; repeat match type of E with
          | (if ?b then _ else _) = _ => destruct b
          | match ?x with _ => _ end = _ => destruct x
          end; try discriminate; injection E as <-; cbn [x_mode] in M; try discriminate; try (split; [eexists; reflexivity|split; reflexivity]); repeat match type of M with context [if ?b then _ else _] => destruct b end; discriminate.
  Qed.
  (** where the reader stands after the opening tags and some complete events *)
  Lemma opened h l ds : heading h -> opening_ok l -> Forall safe (map plain_of_doc ds) -> apart (map plain_of_doc ds) -> match ds with DText _ :: _ => False | _ => True end ->
    exists s k, Xml_model.run cut x_init (h ++ opening_text l ++ join (map xml (map plain_of_doc ds))) = Go s /\ x_mode s = Text k /\ x_open s <> [] /\
      exists ds' o', hrun (h_init []) o' = Ok (h_init []) /\ Forall2 rcd ds ds' /\ Xml_model.flush cut s = app o' (flat_map ser_doc ds').
  Proof.
    intros Hh [Ol OF] HS HA Hf. set (t1 := h ++ opening_text l ++ join (map xml (map plain_of_doc ds))).
    assert (K0 : exists k, forall rest, Xml_model.run cut x_init (h ++ opening_text l ++ rest) = Xml_model.run cut (mkx (Text k) "" [] false []) (opening_text l ++ rest)).
    { destruct l as [|[[t a] b] l]; [contradiction|]. pose proof (Forall_inv OF) as (F1 & _). cbn [fst snd] in F1.
      destruct Hh as [->|(d & b' & Hd & Hb & ->)].
      - exists 0%nat. intros rest. destruct t as [|c t]; [discriminate|]. unfold opening_text. cbn [map fst snd]. rewrite join_cons, !app_assoc_s. cbn [append Xml_model.run]. cbn [is_name] in F1. apply andb_true_iff in F1. destruct F1 as [Hc _].
        destruct (letter_ok c Hc) as (E1 & E2 & E3 & E4 & E5 & E6 & E7 & E8 & E9).
        change (Xml_model.step cut x_init "<") with (Go (mkx First "" [] false [])). change (Xml_model.step cut (mkx (Text 0) "" [] false []) "<") with (Go (mkx Lt "" [] false [])). cbv iota beta.
        assert (St : Xml_model.step cut (mkx First "" [] false []) c = Xml_model.step cut (mkx Lt "" [] false []) c). { unfold Xml_model.step. rewrite E2. cbn [x_mode]. rewrite E6. unfold in_lt. rewrite E5, E6, E7, E3. reflexivity. }
        rewrite St. reflexivity.
      - destruct (run_blank cut b' 0 "" false [] Hb) as (k & Ek). exists k. intros rest. rewrite !app_assoc_s. change ("<?" ++ ?x) with (String "<" (String "?" x)). cbn [Xml_model.run]. change (Xml_model.step cut x_init "<") with (Go (mkx First "" [] false [])). cbv iota beta.
        change (Xml_model.step cut (mkx First "" [] false []) "?") with (Go (mkx Decl "" [] false [])). cbv iota beta. rewrite run_app_s, run_decl by (try reflexivity; exact Hd).
        change ("?>" ++ ?x) with (String "?" (String ">" x)). cbn [Xml_model.run]. change (Xml_model.step cut (mkx Decl "" [] false []) "?") with (Go (mkx DeclQ "" [] false [])). cbv iota beta.
        change (Xml_model.step cut (mkx DeclQ "" [] false []) ">") with (Go (mkx (Text 0) "" [] false [])). cbv iota beta. rewrite run_app_s, Ek. reflexivity. }
    destruct K0 as (k & K0).
    destruct (run_opening l k "" [] false [] (join (map xml (map plain_of_doc ds)) ++ "<" ++ "") (fun _ => eq_refl) eq_refl Ol OF) as (k' & w' & open' & o' & A1 & A2 & A3).
    destruct (reads_list cut (proj1 Hfair) (proj2 Hfair) (map plain_of_doc ds)) with (o := o') (open := open') (k := k') (w := w') as (l' & w2 & o2 & F & G & B).
    { apply Forall_forall. intros p _. apply (reads_all cut (proj1 Hfair) (proj2 Hfair)). }
    { apply safe_forall. exact HS. } { exact HA. } { exact A1. }
    { destruct ds as [|[ps|? ? ?|?] ds]; cbn [map plain_of_doc]; [exact I|contradiction|discriminate|discriminate]. }
    destruct (docs_back ds l' F) as (ds' & <- & R'). specialize (B ""). cbn [Xml_model.run] in B.
    assert (Z : Xml_model.run cut x_init (t1 ++ "<") = Go (mkx Lt w2 open' true o2)).
    { unfold t1. rewrite !app_assoc_s, K0. rewrite <- B. exact A3. }
    rewrite run_app_s in Z. destruct (Xml_model.run cut x_init t1) as [s| |] eqn:R; try discriminate. cbn [Xml_model.run] in Z. destruct (Xml_model.step cut s "<") as [s2| |] eqn:S2; try discriminate. injection Z as ->.
    destruct (step_to_text _ _ S2 eq_refl) as [(k2 & M) [O Q]]. cbn [x_open] in O. exists s, k2. split; [reflexivity|]. split; [exact M|]. split; [congruence|].
    exists ds', (app o' (map Chars (flushed cut o' w'))). split; [rewrite run_app, A2; cbn [rbind]; apply run_outer_chars|]. split; [exact R'|].
    rewrite <- Q, flush_flushed, G. f_equal. clear. induction ds' as [|d ds' IH]; [reflexivity|]. cbn [map flat_map]. rewrite ser_doc_plain, IH. reflexivity.
  Qed.
  Lemma complete_kept h l ds u rs : heading h -> opening_ok l -> Forall doc_ok ds -> Forall safe (map plain_of_doc ds) -> apart (map plain_of_doc ds) -> match ds with DText _ :: _ => False | _ => True end ->
    file (h ++ opening_text l ++ join (map xml (map plain_of_doc ds)) ++ u) = Records rs ->
    exists rs', QuakeML_model.parse_quakeml tf tm so ia iq (flat_map ser_doc (map merge_doc ds)) = Ok rs' /\ begins rs' rs.
  Proof.
    intros Hh HO Hok HS HA Hf H. destruct (opened h l ds Hh HO HS HA Hf) as (s0 & k & R0 & _ & _ & ds' & o' & K1 & K2 & K3). set (t1 := h ++ opening_text l ++ join (map xml (map plain_of_doc ds))) in *.
    replace (h ++ opening_text l ++ join (map xml (map plain_of_doc ds)) ++ u) with (t1 ++ u) in H by (unfold t1; rewrite !app_assoc_s; reflexivity).
    destruct (file_records _ _ H) as (es & hh & P & E & ->). destruct (prefix_handled cut tf tm so ia iq cut_join t1 u es hh P E) as (s & R & C & _ & (h2 & H2 & l2 & L2)).
    assert (s0 = s) by (apply run_norm in R0; congruence). subst s0. rewrite <- (parse_rc_list ds ds' Hok K2). rewrite K3, run_app, K1 in H2. cbn [rbind] in H2. exists (h_cat h2). split; [|exists l2; exact L2].
    unfold QuakeML_model.parse_quakeml. rewrite H2. reflexivity.
  Qed.
  Lemma silent h l ds rs : heading h -> opening_ok l -> Forall doc_ok ds -> Forall safe (map plain_of_doc ds) -> apart (map plain_of_doc ds) -> match ds with DText _ :: _ => False | _ => True end ->
    QuakeML_model.parse_quakeml tf tm so ia iq (flat_map ser_doc (map merge_doc ds)) = Ok rs ->
    file (h ++ opening_text l ++ join (map xml (map plain_of_doc ds))) = Records rs.
  Proof.
    intros Hh HO Hok HS HA Hf H. destruct (opened h l ds Hh HO HS HA Hf) as (s & k & R & M & O & ds' & o' & K1 & K2 & K3). rewrite <- (parse_rc_list ds ds' Hok K2) in H.
    unfold parse_quakeml_file, reading_of. rewrite (run_norm _ _ _ _ R). cbn [finish]. rewrite M. destruct (x_open s) as [|m op]; [contradiction|]. unfold QuakeML_model.parse_quakeml in H. unfold handled, QuakeML_model.parse_quakeml. rewrite K3, run_app, K1. cbn [rbind].
    destruct (hrun (h_init []) (flat_map ser_doc ds')) as [h'|]; cbn [rmap rbind] in *; [injection H as ->; reflexivity|discriminate].
  Qed.
End Cut.

(** Cut off anywhere, a file that can be read gives the first records of the whole file, or
    SAXParseException; nothing else, in particular no record that the whole file does not have. *)
Theorem C184_cut_off_file : forall cut tf tm so ia iq t u rs, (forall o s, join (cut o s) = s) ->
  parse_quakeml_file cut tf tm so ia iq (t ++ u) = Records rs ->
  parse_quakeml_file cut tf tm so ia iq t = ParseError \/ exists rs', parse_quakeml_file cut tf tm so ia iq t = Records rs' /\ begins rs' rs.
Proof. intros cut tf tm so ia iq t u rs Hc. apply file_prefix. exact Hc. Qed.
Print Assumptions C184_cut_off_file.
(** Records whose event is complete are kept. *)
Theorem C184_complete_events : forall cut tf tm so ia iq h l ds u rs, fair_cut solid cut -> heading h -> opening_ok l ->
  Forall doc_ok ds -> Forall safe (map plain_of_doc ds) -> apart (map plain_of_doc ds) -> match ds with DText _ :: _ => False | _ => True end ->
  parse_quakeml_file cut tf tm so ia iq (h ++ opening_text l ++ join (map xml (map plain_of_doc ds)) ++ u) = Records rs ->
  exists rs', parse_quakeml tf tm so ia iq (flat_map ser_doc (map merge_doc ds)) = Ok rs' /\ begins rs' rs.
Proof. intros cut tf tm so ia iq h l ds u rs Hf. apply complete_kept; [exact (proj1 Hf)|exact Hf]. Qed.
Print Assumptions C184_complete_events.
(** Cut off anywhere, a string that can be read raises SAXParseException, or gives the same records
    because only white space, comments or processing instructions are missing. *)
Theorem C184_cut_off_string : forall cut tf tm so ia iq t u rs, (forall o s, join (cut o s) = s) ->
  parse_quakeml_string cut tf tm so ia iq (t ++ u) = Records rs -> t <> "" ->
  parse_quakeml_string cut tf tm so ia iq t = ParseError \/
  (parse_quakeml_string cut tf tm so ia iq t = Records rs /\ (white_space u \/ occurs "<!" u \/ occurs "<?" u)).
Proof. intros cut tf tm so ia iq t u rs Hc. apply str_prefix. exact Hc. Qed.
Print Assumptions C184_cut_off_string.

(** ** C185: an interrupted file is not reported.  Cut off after any complete events, it is read like
    a document with these events only. *)
Theorem C185_silently_short_refuted : forall cut tf tm so ia iq h l ds rs, fair_cut solid cut -> heading h -> opening_ok l ->
  Forall doc_ok ds -> Forall safe (map plain_of_doc ds) -> apart (map plain_of_doc ds) -> match ds with DText _ :: _ => False | _ => True end ->
  parse_quakeml tf tm so ia iq (flat_map ser_doc (map merge_doc ds)) = Ok rs ->
  parse_quakeml_file cut tf tm so ia iq (h ++ opening_text l ++ join (map xml (map plain_of_doc ds))) = Records rs.
Proof. intros cut tf tm so ia iq h l ds rs Hf. apply silent; exact Hf. Qed.
Print Assumptions C185_silently_short_refuted.

(** An empty text has no records, for all three functions. *)
Theorem C184_empty_text : forall cut tf tm so ia iq, parse_quakeml_file cut tf tm so ia iq "" = Records [] /\ parse_quakeml_string cut tf tm so ia iq "" = Records [].
Proof. intros. split; reflexivity. Qed.
Print Assumptions C184_empty_text.
