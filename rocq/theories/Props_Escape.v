(** * C188: escaped documents *)
From Coq Require Import List Bool String Ascii Arith Lia ZArith QArith.
From Verif Require Import Base Dict QuakeML_model Spec_QuakeML QuakeML_proofs Props_QuakeML Spec_Export Spec_Xml Xml_model Xml_proofs Recut_proofs Props_Xml Spec_Spelling Spelling_proofs Props_Spelling Escape_proofs.
Import ListNotations.
Open Scope string_scope.

Lemma misc_of_blank b : blank b -> misc b.
Proof.
  unfold blank. induction b as [|c b IH]; intros H; [constructor|]. cbn [all] in H. apply andb_true_iff in H. destruct H as [H1 H2]. apply misc_blank; [unfold blank; cbn [all]; rewrite H1; reflexivity|apply IH; exact H2].
Qed.
(** Whatever the texts and attributes of a document are (no control characters, no line breaks in
    attributes), its escaped text is read as the document: nothing remains escaped in the records. *)
Theorem C188_escaped_text : forall cut tf tm so ia iq h d b, fair_cut solid cut -> heading h -> blank b -> doc_ok d -> (forall ps, d <> DText ps) -> writable_tree (plain_of_doc d) ->
  parse_quakeml_file cut tf tm so ia iq (h ++ xml_esc (plain_of_doc d) ++ b) = answer_of (parse_quakeml tf tm so ia iq (ser_doc (merge_doc d))) /\
  parse_quakeml_string cut tf tm so ia iq (h ++ xml_esc (plain_of_doc d) ++ b) = answer_of (parse_quakeml tf tm so ia iq (ser_doc (merge_doc d))).
Proof.
  intros cut tf tm so ia iq h d b Hc Hh Hb Hok Hd HS.
  exact (C216_any_spelling cut tf tm so ia iq h "" d (xml_esc (plain_of_doc d)) b Hc Hh misc_nil (misc_of_blank b Hb) Hok Hd (esc_written _ HS)).
Qed.
Print Assumptions C188_escaped_text.

(** an event id with an ampersand, a description with every special character *)
Definition special_doc : doc := DElem "quakeml" [] [DEvent (mkevent [("publicID", "query?eventid=x&format=" ++ String quote "y")] [Plain (PElem "type" [] [PText ["a<b && ]]>"]])])].
Example special_case : doc_ok special_doc /\ writable_tree (plain_of_doc special_doc) /\
  xml_esc (plain_of_doc special_doc) = "<quakeml><event publicID=" ++ String quote ("query?eventid=x&amp;format=&quot;y" ++ String quote "><type>a&lt;b &amp;&amp; ]]&gt;</type></event></quakeml>") /\
  forall tf tm so iq, exists r, parse_quakeml_string (fun _ s => [s]) tf tm so true iq (xml_esc (plain_of_doc special_doc)) = Records [r] /\
    dget r "eventID" = Some (Some ("query?eventid=x&format=" ++ String quote "y")) /\ dget r "event_type" = Some (Some "a<b && ]]>").
Proof.
  split; [cbn; repeat split; repeat constructor|]. split; [cbn; repeat split; repeat constructor; cbn; auto; try (intros []); discriminate|]. split; [vm_compute; reflexivity|]. intros tf tm so iq. destruct iq; (eexists; split; [vm_compute; reflexivity|split; vm_compute; reflexivity]).
Qed.
