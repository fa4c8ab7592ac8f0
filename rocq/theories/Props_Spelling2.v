(** * C220, C221: two claims about the reading of well-formed documents that are false of the code *)
From Coq Require Import List Bool String Ascii Arith Lia ZArith QArith.
From Verif Require Import Base Dict QuakeML_model Spec_QuakeML QuakeML_proofs Props_QuakeML Spec_Export Spec_Xml Xml_model Xml_proofs Recut_proofs Props_Xml Spec_Spelling Spelling_proofs Props_Spelling.
Import ListNotations.
Open Scope string_scope.

(** ** C220: processing instructions in texts *)
(** a text with a processing instruction in it is a way to write the text without it (XML: the
    text of the element is "quarry blast"), but the record is another one *)
Definition blast (t : string) : string := "<quakeml><event><type>" ++ t ++ "</type></event></quakeml>".
Definition blast_doc : doc := DElem "quakeml" [] [DEvent (mkevent [] [Plain (PElem "type" [] [PText ["quarry blast"]])])].
Lemma app_assoc_s3 (a b c : string) : (a ++ b) ++ c = a ++ b ++ c.
Proof. induction a as [|x a IH]; [reflexivity|]. cbn [append]. rewrite IH. reflexivity. Qed.
Lemma one_child sol t c w : is_name t = true -> written sol c w -> written sol (PElem t [] [c]) ("<" ++ t ++ ">" ++ w ++ "</" ++ t ++ ">").
Proof.
  intros Ht H. assert (E : "<" ++ t ++ join [] ++ "" ++ ">" ++ join [w] ++ "</" ++ t ++ "" ++ ">" = "<" ++ t ++ ">" ++ w ++ "</" ++ t ++ ">").
  { unfold join. cbn [fold_right]. rewrite (app_nil_s w). reflexivity. }
  rewrite <- E.
  apply (w_elem sol t [] [c] [] [w] "" ""); [split; [exact Ht|split; constructor]|constructor|reflexivity|reflexivity|split; [intros; exact I|exact I]|]. constructor; [exact H|constructor].
Qed.
Lemma blast_written t : spelled true 0 "quarry blast" t -> written (fun _ => True) (plain_of_doc blast_doc) (blast t).
Proof.
  intros H. unfold blast_doc. cbn [plain_of_doc map ev_attrs ev_children plain_of_child].
  assert (A : written (fun _ => True) (PText ["quarry blast"]) t) by (apply (w_text _ true); auto).
  apply (one_child _ "type") in A; [|reflexivity]. apply (one_child _ "event") in A; [|reflexivity]. apply (one_child _ "quakeml") in A; [|reflexivity].
  unfold blast. match type of A with written _ _ ?x => match goal with |- written _ _ ?y => replace y with x; [exact A|] end end. cbn [append]. rewrite !app_assoc_s3. reflexivity.
Qed.
Theorem C220_instruction_in_a_text_refuted : forall tf tm so ia iq, exists t t' r r',
  written (fun _ => True) (plain_of_doc blast_doc) t /\ written (fun _ => True) (plain_of_doc blast_doc) t' /\
  parse_quakeml_file (fun _ s => [s]) tf tm so ia iq t = Records [r] /\ dget r "event_type" = Some (Some "quarry blast") /\
  parse_quakeml_file (fun _ s => [s]) tf tm so ia iq t' = Records [r'] /\ dget r' "event_type" = Some (Some "quarryblast").
Proof.
  intros tf tm so ia iq. destruct (parse_quakeml_file (fun _ s => [s]) tf tm so ia iq (blast "quarry blast")) as [[|r [|? ?]]| | |] eqn:E1; try (exfalso; destruct iq; vm_compute in E1; discriminate E1).
  destruct (parse_quakeml_file (fun _ s => [s]) tf tm so ia iq (blast ("quarry" ++ "<?two?>" ++ " blast"))) as [[|r' [|? ?]]| | |] eqn:E2; try (exfalso; destruct iq; vm_compute in E2; discriminate E2).
  exists (blast "quarry blast"), (blast ("quarry" ++ "<?two?>" ++ " blast")), r, r'.
  split; [|split; [|split; [exact E1|split; [|split; [exact E2|]]]]].
  - apply blast_written. repeat plain_char. constructor.
  - apply blast_written. cbn [append]. do 6 plain_char. apply (sp_pi true 0 "<?two?>" " blast" " blast"); [reflexivity|apply two_instruction|]. repeat plain_char. constructor.
  - destruct iq; vm_compute in E1; injection E1 as <-; reflexivity.
  - destruct iq; vm_compute in E2; injection E2 as <-; reflexivity.
Qed.
Print Assumptions C220_instruction_in_a_text_refuted.

(** ** C221: not every well-formed document is answered *)
(** after an origin that is not part of an event, a text (that is not white space) makes the
    parser look for the last of no events *)
Definition stray : plain := PElem "q" [] [PElem "origin" [] []; PText ["x"]].
Theorem C221_every_document_is_answered_refuted : forall tf tm so ia iq, exists t, written solid stray t /\
  parse_quakeml_file (fun _ s => [s]) tf tm so ia iq t = Raised IndexError /\ parse_quakeml_string (fun _ s => [s]) tf tm so ia iq t = Raised IndexError.
Proof.
  intros tf tm so ia iq. exists "<q><origin/>x</q>". split; [|split; vm_compute; reflexivity].
  apply (w_elem _ "q" [] _ [] ["<origin/>"; "x"] "" ""); [split; [reflexivity|split; constructor]|constructor|reflexivity|reflexivity|cbn; auto|].
  constructor; [|constructor; [|constructor]].
  - apply (w_empty _ "origin" [] [] ""); [split; [reflexivity|split; constructor]|constructor|reflexivity].
  - apply (w_text _ false); [|discriminate]. change (join ["x"]) with "x". plain_char. constructor.
Qed.
Print Assumptions C221_every_document_is_answered_refuted.
