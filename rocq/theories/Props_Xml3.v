(** * C231: markup that is no markup is refused *)
From Coq Require Import List Bool String Ascii Arith Lia ZArith QArith.
From Verif Require Import Base Dict QuakeML_model Spec_QuakeML QuakeML_proofs Props_QuakeML Spec_Export Spec_Xml Xml_model Xml_proofs Recut_proofs Xml_cut Props_Xml Props_Xml2.
Import ListNotations.
Open Scope string_scope.

(** what cannot follow [<] inside the root element: a character that starts neither a name nor
    [</], [<!], [<?]; and [<!] that opens neither a comment nor a CDATA section (a document type
    declaration inside the document, for instance) *)
Definition no_markup (u : string) : Prop :=
  (exists c r, u = String "<" (String c r) /\ letter c = false /\ ~ In c [":"; "/"; "!"; "?"]%char) \/
  (exists c r, u = "<!" ++ String c r /\ ~ In c ["-"; "["]%char).
(** SAXParseException, or the exception that an event before the fault causes *)
Definition refused (a : answer) : Prop := a = ParseError \/ exists e, a = Raised e.

Section Fault.
  Variable cut : list sax -> string -> list string.
  Lemma no_start c : letter c = false -> c <> ":"%char -> name_start c = false.
  Proof.
    intros H Hc. pose proof (by_cases (fun c => implb (negb (letter c) && negb (Ascii.eqb c ":")) (negb (name_start c))) eq_refl c) as K. cbv beta in K.
    rewrite H in K. destruct (Ascii.eqb_spec c ":"); [contradiction|]. cbn [negb andb implb] in K. apply negb_true_iff. exact K.
  Qed.
  Lemma run_bad s c r : (exists es, Xml_model.step cut s c = Bad es) -> exists es, Xml_model.run cut s (String c r) = Bad es.
  Proof. intros (es & E). exists es. cbn [Xml_model.run]. rewrite E. reflexivity. Qed.
  Lemma lt_bad w o root es0 c : o <> [] -> name_start c = false -> ~ In c ["/"; "!"; "?"]%char -> exists es, Xml_model.step cut (mkx Lt w o root es0) c = Bad es.
  Proof.
    intros Ho Hn Hi. unfold Xml_model.step. cbn [x_mode]. destruct (illegal c); [eexists; reflexivity|]. unfold in_lt.
    destruct (Ascii.eqb_spec c BANG) as [->|]; [exfalso; apply Hi; right; left; reflexivity|].
    destruct (Ascii.eqb_spec c QM) as [->|]; [exfalso; apply Hi; right; right; left; reflexivity|].
    destruct (Ascii.eqb_spec c SLASH) as [->|]; [exfalso; apply Hi; left; reflexivity|]. rewrite Hn. eexists; reflexivity.
  Qed.
  Lemma bang_bad w o root es0 c : o <> [] -> ~ In c ["-"; "["]%char -> exists es, Xml_model.step cut (mkx Bang w o root es0) c = Bad es.
  Proof.
    intros Ho Hi. unfold Xml_model.step. cbn [x_mode]. destruct (illegal c); [eexists; reflexivity|]. unfold in_bang. cbn [x_open].
    destruct (Ascii.eqb_spec c DASH) as [->|]; [exfalso; apply Hi; left; reflexivity|]. destruct o; [contradiction|].
    destruct (Ascii.eqb_spec c LB) as [->|]; [exfalso; apply Hi; right; left; reflexivity|]. eexists; reflexivity.
  Qed.
  Lemma norm_head c r : exists c' r', norm false (String c r) = String c' r' /\ (c' = c \/ c' = LF).
  Proof. cbn [norm]. destruct (Ascii.eqb c CR); [exists LF; eexists; split; [reflexivity|right; reflexivity]|]. cbn [andb]. exists c. eexists. split; [reflexivity|left; reflexivity]. Qed.
  Lemma faulty t u s k : Xml_model.run cut x_init t = Go s -> x_mode s = Text k -> x_open s <> [] -> no_markup u -> exists es, reading_of cut (t ++ u) = Fault es.
  Proof.
    intros R M O U. unfold reading_of. destruct (norm_split t false) as (f & N). rewrite N, run_app_s, (run_norm _ _ _ _ R).
    assert (K : exists es, Xml_model.run cut s (norm f u) = Bad es); [|destruct K as (es & ->); exists es; reflexivity].
    destruct s as [m w o root es0]. cbn [x_mode x_open] in *. subst m. destruct U as [(c & r & -> & L & I)|(c & r & -> & I)].
    - assert (E : norm f (String "<" (String c r)) = String "<" (norm false (String c r))) by (destruct f; reflexivity).
      rewrite E. destruct (norm_head c r) as (c' & r' & -> & Hc). cbn [Xml_model.run]. rewrite step_lt. apply (run_bad (mkx Lt w o root es0) c' r'). apply lt_bad; [exact O| |].
      + destruct Hc as [->| ->]; [apply no_start; [exact L|]|reflexivity]. intros ->. apply I. left. reflexivity.
      + destruct Hc as [->| ->]; [intros H; apply I; right; exact H|]. intros [H|[H|[H|[]]]]; discriminate.
    - assert (E : norm f ("<!" ++ String c r) = String "<" (String "!" (norm false (String c r)))).
      { destruct f; reflexivity. }
      rewrite E. destruct (norm_head c r) as (c' & r' & -> & Hc). cbn [Xml_model.run]. rewrite step_lt.
      change (Xml_model.step cut (mkx Lt w o root es0) "!") with (Go (mkx Bang w o root es0)). cbv iota beta. apply (run_bad (mkx Bang w o root es0) c' r'). apply bang_bad; [exact O|].
      destruct Hc as [->| ->]; [exact I|]. intros [H|[H|[]]]; discriminate.
  Qed.
End Fault.

(** After the opening tags and any complete events and texts, anything that looks like markup and is
    none: neither the file nor the string gives records, whatever follows. *)
Theorem C231_no_markup_refused : forall cut tf tm so ia iq h l ds u, fair_cut solid cut -> heading h -> opening_ok l ->
  Forall safe (map plain_of_doc ds) -> apart (map plain_of_doc ds) -> match ds with DText _ :: _ => False | _ => True end ->
  no_markup u ->
  refused (parse_quakeml_file cut tf tm so ia iq (h ++ opening_text l ++ join (map xml (map plain_of_doc ds)) ++ u)) /\
  refused (parse_quakeml_string cut tf tm so ia iq (h ++ opening_text l ++ join (map xml (map plain_of_doc ds)) ++ u)).
Proof.
  intros cut tf tm so ia iq h l ds u Hf Hh HO HS HA Hd HU.
  destruct (opened cut tf tm so ia iq Hf h l ds Hh HO HS HA Hd) as (s & k & R & M & O & _).
  replace (h ++ opening_text l ++ join (map xml (map plain_of_doc ds)) ++ u) with ((h ++ opening_text l ++ join (map xml (map plain_of_doc ds))) ++ u) by (rewrite !app_assoc_s; reflexivity).
  set (t := h ++ opening_text l ++ join (map xml (map plain_of_doc ds))) in *.
  destruct (faulty cut t u s k R M O HU) as (es & E).
  assert (P : refused (handled tf tm so ia iq es (fun _ => ParseError))) by (unfold handled; destruct (parse_quakeml tf tm so ia iq es); [left|right; eexists]; reflexivity).
  unfold parse_quakeml_file, parse_quakeml_string. rewrite E. split; [exact P|].
  destruct (String.eqb_spec (t ++ u) "") as [Z|_]; [|exact P]. exfalso. rewrite Z in E. discriminate.
Qed.
Print Assumptions C231_no_markup_refused.
(** [<q:quakeml>depth < 3</q:quakeml>], and a document type declaration inside the document *)
Example C231_case : forall cut tf tm so ia iq, fair_cut solid cut ->
  refused (parse_quakeml_file cut tf tm so ia iq "<q:quakeml>depth < 3</q:quakeml>") /\
  refused (parse_quakeml_string cut tf tm so ia iq "<q:quakeml>depth <!DOCTYPE q></q:quakeml>").
Proof.
  intros cut tf tm so ia iq Hf.
  assert (HO : opening_ok [("q:quakeml", [], "depth ")]).
  { split; [discriminate|]. repeat constructor. intros (x & y & E). cbn in E. repeat (destruct x as [|? x]; [discriminate E|cbn in E; try discriminate E; injection E as _ E]). }
  assert (HH : heading "") by (left; reflexivity).
  assert (U1 : no_markup "< 3</q:quakeml>").
  { left. exists " "%char, "3</q:quakeml>". split; [reflexivity|]. split; [reflexivity|]. intros [H|[H|[H|[H|[]]]]]; discriminate. }
  assert (U2 : no_markup "<!DOCTYPE q></q:quakeml>").
  { right. exists "D"%char, "OCTYPE q></q:quakeml>". split; [reflexivity|]. intros [H|[H|[]]]; discriminate. }
  split.
  - exact (proj1 (C231_no_markup_refused cut tf tm so ia iq "" [("q:quakeml", [], "depth ")] [] "< 3</q:quakeml>" Hf HH HO (Forall_nil _) I I U1)).
  - exact (proj2 (C231_no_markup_refused cut tf tm so ia iq "" [("q:quakeml", [], "depth ")] [] "<!DOCTYPE q></q:quakeml>" Hf HH HO (Forall_nil _) I I U2)).
Qed.
