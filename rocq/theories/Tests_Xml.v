(** Cases for C183-C187, and tests of the reader on small texts.  Tests, not proofs of properties. *)
From Coq Require Import List Bool String Ascii Arith Lia ZArith QArith Permutation.
From Verif Require Import Base Dict Utils_model QuakeML_model Spec_QuakeML QuakeML_proofs Props_QuakeML Props_QuakeML2 Props_QuakeML3 Spec_Export Export_model Export_proofs Props_Export Props_Export2 Spec_Xml Xml_model Xml_proofs Recut_proofs Xml_cut Props_Xml Props_Xml2 ExportText_model ExportText_proofs Props_ExportText Props_ExportText2.
Import ListNotations.
Open Scope string_scope.

(** ** a way of cutting: texts without white space lose their first character *)
Fixpoint dense (s : string) : bool := match s with "" => true | String c t => negb (is_space c) && dense t end.
Lemma dense_app a b : dense (a ++ b) = dense a && dense b.
Proof. induction a as [|c a IH]; [reflexivity|]. cbn [append dense]. rewrite IH, andb_assoc. reflexivity. Qed.
Definition cut_first (o : list sax) (s : string) : list string :=
  match s with String c t => if dense s then [String c ""; t] else [s] | _ => [s] end.
Example cut_first_fair : fair_cut solid cut_first.
Proof.
  split; intros o s.
  - unfold cut_first. destruct s as [|c t]; [reflexivity|]. destruct (dense _); cbn; rewrite app_nil_s; reflexivity.
  - unfold cut_first. destruct s as [|c t]; [right; reflexivity|]. destruct (dense (String c t)) eqn:E; [left|right; reflexivity].
    intros a x b y d H _ _ b1 z b2 ->. rewrite H in E. rewrite dense_app in E. cbn [dense] in E. rewrite !dense_app in E. cbn [dense] in E. rewrite !andb_true_iff, !negb_true_iff in E. tauto.
Qed.
(** ** C183, C184, C185: the document of C54 *)
Ltac safe_tree :=
  repeat match goal with
  | |- safe (PElem _ _ _) => apply elem_safe
  | |- safe (PText _) => (split; [reflexivity|apply no_marker; reflexivity])
  | |- is_name _ = true => reflexivity
  | |- safe_attrs [] => apply no_attrs
  | |- safe_attrs _ => apply one_attr; [reflexivity|apply writable_lit; reflexivity]
  | |- apart _ => cbn; repeat split; auto; discriminate
  | |- all_safe (_ :: _) => split
  | |- all_safe [] => exact I
  | |- fold_right _ True _ => change (fold_right (fun c r => safe c /\ r) True ?l) with (all_safe l)
  end.
Example sample_safe : safe (plain_of_doc sample).
Proof.
  unfold sample. cbn [plain_of_doc map ev_attrs ev_children plain_of_child]. 
  safe_tree.
Qed.
Definition sample_text : string := "<?xml?>" ++ newline ++ xml (plain_of_doc sample) ++ newline.
Example sample_heading : heading ("<?xml?>" ++ newline).
Proof. right. exists "xml", newline. repeat split. Qed.
Section Read.
  Variables (tf : option string -> res Q) (tm : option string -> res Z).
  Notation file := (parse_quakeml_file cut_first tf tm (fun l => l) true false).
  Notation str := (parse_quakeml_string cut_first tf tm (fun l => l) true false).
  Example sample_read : exists r r', file sample_text = Records [r; r'] /\ str sample_text = Records [r; r'] /\
    dget r "event_type" = Some (Some "earthquake") /\ dget r "magnitude" = Some (Some "2.1") /\ dget r' "eventID" = Some (Some "ev2").
  Proof. do 2 eexists. split; [vm_compute; reflexivity|]. split; [vm_compute; reflexivity|]. repeat split. Qed.
  (** cut off inside the second event: a fault; after the first event: one record and no error from
      a file, an error for a string *)
  Definition part (n : nat) : string := substring 0 n sample_text.
  Example parts_are : part 410 = part 407 ++ "<ev" /\ (exists u, part 407 = u ++ "</event>").
  Proof. split; [vm_compute; reflexivity|]. exists (substring 0 399 sample_text). vm_compute. reflexivity. Qed.
  Example sample_cut_off : sample_text = part 410 ++ substring 410 1000 sample_text /\ ~ blank (substring 410 1000 sample_text) /\ str (part 410) = ParseError /\ file (part 410) = ParseError /\
    exists r, file (part 407) = Records [r] /\ dget r "eventID" = Some (Some "ev1") /\ str (part 407) = ParseError.
  Proof. split; [vm_compute; reflexivity|]. split; [vm_compute; discriminate|]. split; [vm_compute; reflexivity|]. split; [vm_compute; reflexivity|]. eexists. split; [vm_compute; reflexivity|]. split; vm_compute; reflexivity. Qed.
End Read.
(** the parts of C185: two opening tags and the first event *)
Definition sample_front : opening := [("quakeml", [], ""); ("eventParameters", [], "  ")].
Definition sample_event : doc := DEvent (mkevent [("publicID", "ev1")] [
    Plain (PElem "preferredMagnitudeID" [] [PText ["m"; "1"]]); Plain (PElem "preferredOriginID" [] [PText [" o1 "]]); Plain (PText [" "]);
    Plain (PElem "type" [] [PText ["earth"; "quake"]]);
    Magnitude [("publicID", "m1")] [PElem "mag" [] [PElem "value" [] [PText ["2."; "1"]]]; PElem "type" [] [PText ["ML"]]];
    Magnitude [("publicID", "m2")] [PElem "mag" [] [PElem "value" [] [PText ["2.2"]]]; PElem "type" [] [PText ["Mw"]]];
    Origin [("publicID", "o1")] [PElem "depth" [] [PElem "value" [] [PText ["1000"]]]]]).
Example part_is : part 407 = ("<?xml?>" ++ newline) ++ opening_text sample_front ++ join (map xml (map plain_of_doc [sample_event])).
Proof. vm_compute. reflexivity. Qed.
Example sample_front_ok : opening_ok sample_front /\ Forall doc_ok [sample_event] /\ Forall safe (map plain_of_doc [sample_event]) /\ apart (map plain_of_doc [sample_event]).
Proof.
  split; [split; [discriminate|]; repeat constructor; apply no_marker; reflexivity|]. split; [repeat constructor|]. split; [|cbn; repeat split; auto; discriminate]. constructor; [|constructor].
  unfold sample_event. cbn [plain_of_doc map ev_attrs ev_children plain_of_child]. safe_tree.
Qed.
(** small texts *)
Definition callbacks (s : string) : reading := reading_of (fun _ s => [s]) s.
Example r1 : callbacks "<a x='1' y = '&lt;b&amp;'>t&gt;u<b/></a> " = Whole [Start "a" [("x", "1"); ("y", "<b&")]; Chars "t>u"; Start "b" []; End "b"; End "a"]. Proof. vm_compute. reflexivity. Qed.
Example r2 : map callbacks ["<a></b>"; "<a x='1' x='2'/>"; "<a>]]></a>"; "<a>&nosuch;</a>"; "<a/><b/>"; "text"; "<a/>text"; "<a x=1/>"; "<a x='<'/>"; "<a x='1'y='2'/>"; "< a/>"; "</a>"]
  = [Fault [Start "a" []]; Fault []; Fault [Start "a" []]; Fault [Start "a" []]; Fault [Start "a" []; End "a"]; Fault []; Fault [Start "a" []; End "a"]; Fault []; Fault []; Fault []; Fault []; Fault []]. Proof. vm_compute. reflexivity. Qed.
Example r3 : map callbacks [""; "  "; "<a>"; "<a>t"; "<a><b>t</b>"; "<?xml?>"; "<?xml"; "<a"; "<a>&am"]
  = [Short []; Short []; Short [Start "a" []]; Short [Start "a" []; Chars "t"]; Short [Start "a" []; Start "b" []; Chars "t"; End "b"]; Short []; Fault []; Fault []; Fault [Start "a" []]]. Proof. vm_compute. reflexivity. Qed.

(** comments, CDATA sections, processing instructions, references, line breaks *)
Definition crs : string := String (ascii_of_nat 13) "".
Example r4 : map callbacks ["<a>x<!-- - -->y</a>"; "<a>x<![CDATA[<&]]]]>y</a>"; "<a>x<?p?>y</a>"; "<a>&#65;&#x41;&#13;</a>"; "<a b='&#10;&apos;'/>"; "<a>" ++ crs ++ newline ++ "x" ++ crs ++ "</a>"; "<!----><a/><?p q?>"; "<a><![CDATA[]]></a>"]
  = [Whole [Start "a" []; Chars "xy"; End "a"]; Whole [Start "a" []; Chars "x<&]]y"; End "a"]; Whole [Start "a" []; Chars "x"; Chars "y"; End "a"]; Whole [Start "a" []; Chars ("AA" ++ crs); End "a"];
     Whole [Start "a" [("b", newline ++ "'")]; End "a"]; Whole [Start "a" []; Chars (newline ++ "x" ++ newline); End "a"]; Whole [Start "a" []; End "a"]; Whole [Start "a" []; End "a"]]. Proof. vm_compute. reflexivity. Qed.
Example r5 : map callbacks ["<a><!-- -- --></a>"; "<a><!- x --></a>"; "<a>x&#0;</a>"; "<a>&#x110000;</a>"; "<a>&#;</a>"; "<a>&#x;</a>"; "<![CDATA[x]]><a/>"; "<a/><?xml?>"; " <?xml?><a/>"; "<a><!DOCTYPE b></a>"; "<a><? p?></a>"; "<a>]]&gt;]]></a>"; "<a><![CDAT[]]></a>"]
  = [Fault [Start "a" []]; Fault [Start "a" []]; Fault [Start "a" []]; Fault [Start "a" []]; Fault [Start "a" []]; Fault [Start "a" []]; Fault []; Fault [Start "a" []; End "a"]; Fault []; Fault [Start "a" []]; Fault [Start "a" []]; Fault [Start "a" []]; Fault [Start "a" []]]. Proof. vm_compute. reflexivity. Qed.
Example r6 : map callbacks ["<a><!-- "; "<a/><!-- "; "<a><![CDATA[x"; "<a/><?p"; "<!DOCTYPE a><a/>"; "<a>&#956;</a>"] = [Fault [Start "a" []]; Fault [Start "a" []; End "a"]; Fault [Start "a" []]; Fault [Start "a" []; End "a"]; Unknown; Unknown]. Proof. vm_compute. reflexivity. Qed.

(** ** C186, C187: the table of C150 *)
Example sample_writable : writable_table sample_columns sample_rows.
Proof.
  split.
  - assert (H : forallb (fun s => all id_char s && negb (contains "]]>" s)) sample_columns = true) by reflexivity. rewrite forallb_forall in H. intros c Hc. apply writable_lit. apply H. exact Hc.
  - assert (H : forallb (fun row : dict val => forallb (fun kv => match snd kv with Val s => all id_char s && negb (contains "]]>" s) | _ => true end) row) sample_rows = true) by reflexivity.
    apply Forall_forall. intros row Hr c s Hs. rewrite forallb_forall in H. specialize (H row Hr). rewrite forallb_forall in H. specialize (H _ (dget_some_in _ _ _ Hs)). cbn [snd] in H. apply writable_lit. exact H.
Qed.
Definition local_id (i : nat) (c : string) : string := "smi:local/" ++ String (ascii_of_nat (48 + i mod 10)) "".
Example local_id_ok : forall i c, presentable (local_id i c) /\ writable (local_id i c).
Proof.
  intros i c. assert (H : forallb (fun k => let s := "smi:local/" ++ String (ascii_of_nat (48 + k)) "" in (strip s =? s) && (all id_char s && negb (contains "]]>" s))) (seq 0 10) = true) by reflexivity.
  rewrite forallb_forall in H. specialize (H (i mod 10)%nat). cbv zeta in H. fold (local_id i c) in H. rewrite andb_true_iff in H. destruct H as [H1 H2]; [apply in_seq; pose proof (Nat.mod_upper_bound i 10); lia|].
  split; [split; [discriminate|apply String.eqb_eq; exact H1]|apply writable_lit; exact H2].
Qed.
Example C186_case : forall tf tm iq, exists text rows' records, to_quakeml_text (fun _ => "7") " " " " sample_columns local_id sample_rows = Ok text /\ picked row_complete sample_rows rows' /\
    parse_quakeml_file cut_first tf tm (fun l => l) true iq text = Records records /\ parse_quakeml_string cut_first tf tm (fun l => l) true iq text = Records records /\
    Forall2 (comes_back (fun _ => "7") iq sample_columns) rows' records.
Proof.
  intros tf tm iq. apply C186_text_round_trip; [apply cut_first_fair|intros l _; apply Permutation_refl|apply sample_good| |intros; apply local_id_ok|apply sample_writable|apply writable_lit; reflexivity|apply writable_lit; reflexivity| |intros; apply local_id_ok].
  - intros s. split; [discriminate|reflexivity].
  - intros s. apply writable_lit. reflexivity.
Qed.
Example broken_id : breaks "quakeml:earthquake.usgs.gov/fdsnws/event/1/query?eventid=us7000abcd&format=quakeml" /\ breaks "a&b c" /\ breaks "1 < 2" /\ breaks "& so on".
Proof.
  split; [|split; [|split]].
  - exists "quakeml:earthquake.usgs.gov/fdsnws/event/1/query?eventid=us7000abcd", "&format=quakeml". split; [reflexivity|]. split; [reflexivity|]. right. exists "format", "="%char, "quakeml". repeat split; auto; try discriminate; vm_compute; lia.
  - exists "a", "&b c". split; [reflexivity|]. split; [reflexivity|]. right. exists "b", " "%char, "c". repeat split; auto; try discriminate; vm_compute; lia.
  - exists "1 ", "< 2". split; [reflexivity|]. split; [reflexivity|]. left. exists " 2". reflexivity.
  - exists "", "& so on". split; [reflexivity|]. split; [reflexivity|]. right. exists "", " "%char, "so on". repeat split; auto; try discriminate; vm_compute; lia.
Qed.
(** the table of C150 with a column eventID *)
Definition id_columns := app sample_columns ["eventID"].
Definition id_row (id : string) : dict val := app (sample_row (Val "ML") (Val "47.1") (Val "2.4")) [("eventID", Val id)].
Example C187_case : forall tf tm iq, exists text, to_quakeml_text (fun _ => "7") " " " " id_columns local_id [id_row "ev1"; id_row "query?eventid=us7000abcd&format=quakeml"; id_row "ev3"] = Ok text /\
  parse_quakeml_file cut_first tf tm (fun l => l) true iq text = ParseError /\ parse_quakeml_string cut_first tf tm (fun l => l) true iq text = ParseError /\
  exists text', to_quakeml_text (fun _ => "7") " " " " id_columns local_id [id_row "ev1"] = Ok text' /\ exists r, parse_quakeml_file cut_first tf tm (fun l => l) true iq text' = Records [r] /\ dget r "eventID" = Some (Some "ev1").
Proof.
  intros tf tm iq. eexists. split; [vm_compute; reflexivity|]. split; [vm_compute; reflexivity|]. split; [vm_compute; reflexivity|]. eexists. split; [vm_compute; reflexivity|].
  destruct iq; (eexists; split; [vm_compute; reflexivity|vm_compute; reflexivity]).
Qed.
