(** * C216, C217: QuakeML in any spelling *)
From Coq Require Import List Bool String Ascii Arith Lia ZArith QArith.
From Verif Require Import Base Dict QuakeML_model Spec_QuakeML QuakeML_proofs Props_QuakeML Spec_Export Spec_Xml Xml_model Xml_proofs Recut_proofs Props_Xml Spec_Spelling Spelling_proofs.
Import ListNotations.
Open Scope string_scope.

(** However a document is written, it is read as the document, whole texts, whatever the pieces. *)
Theorem C216_any_spelling : forall cut tf tm so ia iq h u d x v, fair_cut solid cut -> heading h -> misc u -> misc v -> doc_ok d -> (forall ps, d <> DText ps) -> written solid (plain_of_doc d) x ->
  parse_quakeml_file cut tf tm so ia iq (h ++ u ++ x ++ v) = answer_of (parse_quakeml tf tm so ia iq (ser_doc (merge_doc d))) /\
  parse_quakeml_string cut tf tm so ia iq (h ++ u ++ x ++ v) = answer_of (parse_quakeml tf tm so ia iq (ser_doc (merge_doc d))).
Proof.
  intros cut tf tm so ia iq h u d x v Hc Hh Hu Hv Hok Hd HW.
  assert (P : exists t a ch, plain_of_doc d = PElem t a ch) by (destruct d as [ps|t a ch|e]; [destruct (Hd ps eq_refl)|eexists _, _, _; reflexivity|eexists _, _, _; reflexivity]).
  destruct P as (t & a & ch & P). rewrite P in *. destruct (reading_any cut (proj1 Hc) (proj2 Hc) h u t a ch x v Hh Hu Hv HW) as (p' & F & E). rewrite <- P in F. destruct (doc_back d p' F) as (d' & <- & R).
  assert (NE : (h ++ u ++ x ++ v =? "") = false). { inversion HW; subst; destruct h, u; reflexivity. }
  unfold parse_quakeml_string. rewrite NE. unfold parse_quakeml_file. rewrite E. unfold handled. rewrite ser_doc_plain, (parse_rc tf tm so ia iq d d' Hok R). split; destruct (parse_quakeml _ _ _ _ _ _); reflexivity.
Qed.
(** Two spellings of one document give the same records. *)
Theorem C216_same_records : forall cut cut' tf tm so ia iq h u d x v h' u' x' v', fair_cut solid cut -> fair_cut solid cut' -> heading h -> heading h' -> misc u -> misc u' -> misc v -> misc v' ->
  doc_ok d -> (forall ps, d <> DText ps) -> written solid (plain_of_doc d) x -> written solid (plain_of_doc d) x' ->
  parse_quakeml_file cut tf tm so ia iq (h ++ u ++ x ++ v) = parse_quakeml_file cut' tf tm so ia iq (h' ++ u' ++ x' ++ v') /\
  parse_quakeml_string cut tf tm so ia iq (h ++ u ++ x ++ v) = parse_quakeml_string cut' tf tm so ia iq (h' ++ u' ++ x' ++ v').
Proof.
  intros. destruct (C216_any_spelling cut tf tm so ia iq h u d x v) as [A1 A2]; try assumption. destruct (C216_any_spelling cut' tf tm so ia iq h' u' d x' v') as [B1 B2]; try assumption.
  rewrite A1, A2, B1, B2. split; reflexivity.
Qed.

(** Line breaks do not matter: any text, whether it is a document or not, is read as the text with
    LF in the place of CR LF and CR. *)
Theorem C217_line_breaks : forall cut tf tm so ia iq raw t, other_breaks raw t ->
  parse_quakeml_file cut tf tm so ia iq raw = parse_quakeml_file cut tf tm so ia iq t /\
  parse_quakeml_string cut tf tm so ia iq raw = parse_quakeml_string cut tf tm so ia iq t.
Proof.
  intros cut tf tm so ia iq raw t H. assert (E : reading_of cut raw = reading_of cut t).
  { destruct (norm_breaks raw t H) as [N1 N2]. unfold reading_of. rewrite N1, (norm_id t N2). reflexivity. }
  assert (NE : (raw =? "") = (t =? "")) by (destruct H; reflexivity).
  unfold parse_quakeml_file, parse_quakeml_string. rewrite E, NE. split; reflexivity.
Qed.
Print Assumptions C216_any_spelling.
Print Assumptions C216_same_records.
Print Assumptions C217_line_breaks.

(** ** one document in two spellings *)
Definition q1 : string := String quote "".
Definition spelling_doc : doc := DElem "quakeml" [("xmlns", "x&" ++ q1)] [DText [""]; DEvent (mkevent [("publicID", "ev 1")] [
  Plain (PElem "type" [] [PText ["a<b ]]>"; " c"]]); Plain (PElem "description" [] [])])].
(** white space in tags, both quotes, named, decimal and hexadecimal references, a comment, a processing
    instruction, a CDATA section, an empty element *)
Definition spelling_text : string :=
  "<quakeml" ++ (newline ++ "xmlns = 'x&#38;" ++ q1 ++ "'") ++ " >" ++
    ("<!-- a - note --><?style a?b?>" ++
     ("<event" ++ (" publicID= " ++ q1 ++ "ev" ++ newline ++ "1" ++ q1) ++ ">" ++
       ("<type>a&#x3c;<![CDATA[b ]]]]><!---->&gt; c</type>" ++ "<description/>") ++ "</event >")) ++ "</quakeml>".
Definition spelling_start : string := "<?xml version='1.0'?>" ++ newline.
Definition spelling_misc : string := "<!-- first --> <?two?>" ++ newline.
Lemma not_in_lit sub s : index 0 sub s = None -> sub <> "" -> ~ occurs sub s.
Proof.
  intros H N (a & b & ->). destruct sub as [|c sub]; [congruence|]. revert H. clear N. intros H.
  assert (K : forall a, index 0 (String c sub) (a ++ String c sub ++ b) <> None); [|exact (K a H)].
  clear. assert (Q : forall x y, prefix x (x ++ y) = true). { induction x as [|e x IH]; intros y; [destruct y; reflexivity|]. cbn [append prefix]. destruct (ascii_dec e e); [apply IH|congruence]. }
  induction a as [|e a IH].
  - cbn [append index]. change (String c (sub ++ b)) with (String c sub ++ b). rewrite Q. discriminate.
  - change (String e a ++ String c sub ++ b) with (String e (a ++ String c sub ++ b)). cbn [index]. set (z := a ++ String c sub ++ b) in *. destruct (prefix (String c sub) (String e z)); [discriminate|]. destruct (index 0 (String c sub) z); [discriminate|exact IH].
Qed.
Ltac lit := apply not_in_lit; [vm_compute; reflexivity|discriminate].
Lemma comment_lit y : all printable y = true -> index 0 "--" (y ++ "-") = None -> comment ("<!--" ++ y ++ "-->").
Proof. intros H1 H2. exists y. split; [reflexivity|]. split; [exact H1|]. apply not_in_lit; [exact H2|discriminate]. Qed.
Lemma amp_dec : refers "&" "&#38;".
Proof. apply (refers_dec "&" "38"); [right; right; right; apply Nat.leb_le; reflexivity|]. apply (denotes_more 10 "3" 3 "8" 8); [apply denotes_one; [cbn; tauto|lia]|cbn; tauto|lia]. Qed.
Lemma lt_hex : refers "<" "&#x3c;".
Proof. apply (refers_hex "<" "3c"); [right; right; right; apply Nat.leb_le; reflexivity|]. apply (denotes_more 16 "3" 3 "c" 12); [apply denotes_one; [cbn; tauto|lia]|cbn; tauto|lia]. Qed.
Lemma in_doc_instruction : instruction "<?style a?b?>".
Proof.
  exists "style", " a?b". split; [reflexivity|]. split; [reflexivity|]. split; [intros K; cbn in K; repeat (destruct K as [K|K]; [discriminate K|]); destruct K|]. split; [reflexivity|]. split; [lit|]. right. exists " "%char, "a?b". split; reflexivity.
Qed.
Lemma two_instruction : instruction "<?two?>".
Proof. exists "two", "". split; [reflexivity|]. split; [reflexivity|]. split; [intros K; cbn in K; repeat (destruct K as [K|K]; [discriminate K|]); destruct K|]. split; [reflexivity|]. split; [lit|]. left. reflexivity. Qed.
Ltac plain_char := apply sp_char; [reflexivity|try discriminate; lia|cbn].
Lemma spelling_written : written solid (plain_of_doc spelling_doc) spelling_text.
Proof.
  unfold spelling_doc. cbn [plain_of_doc map ev_attrs ev_children plain_of_child].
  apply (w_elem solid "quakeml" [("xmlns", "x&" ++ q1)] _ [newline ++ "xmlns = 'x&#38;" ++ q1 ++ "'"] ["<!-- a - note --><?style a?b?>";
     "<event" ++ (" publicID= " ++ q1 ++ "ev" ++ newline ++ "1" ++ q1) ++ ">" ++ ("<type>a&#x3c;<![CDATA[b ]]]]><!---->&gt; c</type>" ++ "<description/>") ++ "</event >"] " " "").
  - split; [reflexivity|]. split; repeat constructor; intros [].
  - constructor; [|constructor]. exists newline, " ", " ", "'"%char, ("x&#38;" ++ q1). repeat split; try discriminate; try reflexivity; [right; reflexivity|].
    apply vs_char; [reflexivity|apply Nat.leb_le; reflexivity|discriminate|]. apply (vs_ref "'" "&" "&#38;"); [apply amp_dec|]. apply vs_char; [reflexivity|apply Nat.leb_le; reflexivity|discriminate|constructor].
  - reflexivity.
  - reflexivity.
  - cbn. auto.
  - constructor; [|constructor; [|constructor]].
    + apply (w_text solid true); [|intros _; apply solid_empty]. apply (sp_comment true 0 "<!-- a - note -->" "" "<?style a?b?>"); [apply (comment_lit " a - note "); reflexivity|].
      apply (sp_pi true 0 "<?style a?b?>" "" ""); [reflexivity|apply in_doc_instruction|constructor].
    + apply (w_elem solid "event" [("publicID", "ev 1")] _ [" publicID= " ++ q1 ++ "ev" ++ newline ++ "1" ++ q1] ["<type>a&#x3c;<![CDATA[b ]]]]><!---->&gt; c</type>"; "<description/>"] "" " ").
      * split; [reflexivity|]. split; repeat constructor; intros [].
      * constructor; [|constructor]. exists " ", "", " ", quote, ("ev" ++ newline ++ "1"). repeat split; try discriminate; try reflexivity; [left; reflexivity|].
        apply vs_char; [reflexivity|apply Nat.leb_le; reflexivity|discriminate|]. apply vs_char; [reflexivity|apply Nat.leb_le; reflexivity|discriminate|]. apply vs_space; [right; reflexivity|]. apply vs_char; [reflexivity|apply Nat.leb_le; reflexivity|discriminate|constructor].
      * reflexivity.
      * reflexivity.
      * cbn. repeat split; discriminate.
      * constructor; [|constructor; [|constructor]].
        -- apply (w_elem solid "type" [] _ [] ["a&#x3c;<![CDATA[b ]]]]><!---->&gt; c"] "" ""); [split; [reflexivity|split; constructor]|constructor|reflexivity|reflexivity|cbn; auto|].
           constructor; [|constructor]. apply (w_text solid false); [|discriminate]. change (join ["a<b ]]>"; " c"]) with "a<b ]]> c".
           plain_char. apply (sp_ref false 0 "<" "&#x3c;"); [apply lt_hex|]. apply (sp_cdata false 0 "b ]]" "> c" "<!---->&gt; c"); [reflexivity|lit|].
           apply (sp_comment false 0 "<!---->" "> c" "&gt; c"); [apply (comment_lit ""); reflexivity|]. apply (sp_ref false 0 ">" "&gt;" " c" " c"); [apply (refers_name ">" "gt"); cbn; tauto|]. plain_char. plain_char. constructor.
        -- apply (w_empty solid "description" [] [] ""); [split; [reflexivity|split; constructor]|constructor|reflexivity].
Qed.
Example spelling_case : doc_ok spelling_doc /\ heading spelling_start /\ misc spelling_misc /\ written solid (plain_of_doc spelling_doc) spelling_text /\
  forall tf tm so iq, exists r, parse_quakeml_string (fun _ s => [s]) tf tm so true iq (spelling_start ++ spelling_misc ++ spelling_text ++ spelling_misc) = Records [r] /\
    dget r "eventID" = Some (Some "ev 1") /\ dget r "event_type" = Some (Some "a<b ]]> c").
Proof.
  split; [cbn; repeat split; repeat constructor|]. split; [right; exists "xml version='1.0'", newline; repeat split|]. split.
  - apply (misc_comment "<!-- first -->" (" <?two?>" ++ newline)); [apply (comment_lit " first "); reflexivity|]. apply (misc_blank " " ("<?two?>" ++ newline)); [reflexivity|]. apply (misc_instruction "<?two?>" newline); [apply two_instruction|]. apply misc_blank; [reflexivity|constructor].
  - split; [apply spelling_written|]. intros tf tm so iq. destruct iq; (eexists; split; [vm_compute; reflexivity|split; vm_compute; reflexivity]).
Qed.
(** the three line breaks, in a text that is not a document *)
Example breaks_case : other_breaks ("<a>" ++ String cr (String lf (String cr (String lf "x" ++ String cr "</b>")))) ("<a>" ++ String lf (String lf "x" ++ String lf "</b>")) /\
  parse_quakeml_string (fun _ s => [s]) (fun _ => Ok 0%Q) (fun _ => Ok 0%Z) (fun l => l) true true ("<a>" ++ String cr "</a>" ++ String cr "") = Records [].
Proof.
  split; [|vm_compute; reflexivity]. cbn [append]. repeat (first [apply ob_crlf | apply ob_char; [discriminate|] | apply ob_cr; [intros (b & E); discriminate E|] | apply ob_nil]).
Qed.
