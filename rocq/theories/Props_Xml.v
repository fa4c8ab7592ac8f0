(** * C183: QuakeML as text *)
From Coq Require Import List Bool String Ascii Arith Lia ZArith QArith.
From Verif Require Import Base Dict QuakeML_model Spec_QuakeML QuakeML_proofs Props_QuakeML Spec_Export Spec_Xml Xml_model Xml_proofs Recut_proofs.
Import ListNotations.
Open Scope string_scope.

Section Whole.
  Variable cut : list sax -> string -> list string.
  Notation run := (Xml_model.run cut).
  Notation step := (Xml_model.step cut).
  Lemma blank_char c : ((code c =? 32) || (code c =? 9) || (code c =? 10))%nat = true -> Ascii.eqb c CR = false /\ illegal c = false /\ Ascii.eqb c LT = false /\ xspace c = true.
  Proof.
    intros H. pose proof (by_cases (fun c => implb (((code c =? 32) || (code c =? 9) || (code c =? 10))%nat) (negb (Ascii.eqb c CR) && negb (illegal c) && negb (Ascii.eqb c LT) && xspace c)) eq_refl c) as K. cbv beta in K. rewrite H in K. cbn [implb] in K.
    rewrite !andb_true_iff, !negb_true_iff in K. tauto.
  Qed.
  Lemma run_blank b : forall k w root o, blank b -> exists k', run (mkx (Text k) w [] root o) b = Go (mkx (Text k') w [] root o).
  Proof.
    induction b as [|c b IH]; intros k w root o H; [exists k; reflexivity|]. unfold blank in H. cbn [all] in H. apply andb_true_iff in H. destruct H as [Hc H]. destruct (blank_char c Hc) as (E1 & E2 & E3 & E4).
    cbn [Xml_model.run]. unfold Xml_model.step. rewrite E2. cbn [x_mode]. unfold in_text. rewrite E3. cbn [x_open]. rewrite E4. unfold goto. cbn [x_pend x_open x_root x_out]. apply IH. exact H.
  Qed.
  Lemma run_decl d : forall s, x_mode s = Decl -> all (fun c => negb (Ascii.eqb c "?") && (32 <=? code c)%nat) d = true -> run s d = Go s.
  Proof.
    induction d as [|c d IH]; intros s Hm H; [reflexivity|]. cbn [all] in H. rewrite !andb_true_iff, negb_true_iff in H. destruct H as [[H1 H2] H3].
    pose proof (by_cases (fun c => implb (negb (Ascii.eqb c "?") && (32 <=? code c)%nat) (negb (Ascii.eqb c CR) && negb (illegal c))) eq_refl c) as K. cbv beta in K. rewrite H1, H2 in K. cbn [implb negb andb] in K.
    rewrite !andb_true_iff, !negb_true_iff in K. destruct K as [K1 K2].
    assert (St : step s c = Go s). { unfold Xml_model.step. rewrite K2, Hm. change QM with "?"%char. rewrite H1. unfold goto. rewrite <- Hm. destruct s; reflexivity. }
    cbn [Xml_model.run]. rewrite St. apply IH; assumption.
  Qed.
  (** before the root element *)
  Lemma run_heading h t a ch rest : heading h -> is_name t = true -> exists k, run x_init (h ++ xml (PElem t a ch) ++ rest) = run (mkx (Text k) "" [] false []) (xml (PElem t a ch) ++ rest).
  Proof.
    intros [->|(d & b & Hd & Hb & ->)] Ht.
    - exists 0%nat. cbn [append xml]. cbn [Xml_model.run]. destruct t as [|c t]; [discriminate|]. cbn [append Xml_model.run]. cbn [is_name] in Ht. apply andb_true_iff in Ht. destruct Ht as [Hc _].
      destruct (letter_ok c Hc) as (E1 & E2 & E3 & E4 & E5 & E6 & E7 & E8 & E9).
      change (step x_init "<") with (Go (mkx First "" [] false [])). change (step (mkx (Text 0) "" [] false []) "<") with (Go (mkx Lt "" [] false [])). cbv iota beta.
      assert (St : step (mkx First "" [] false []) c = step (mkx Lt "" [] false []) c). { unfold Xml_model.step. rewrite E2. cbn [x_mode]. rewrite E6. unfold in_lt. rewrite E5, E6, E7, E3. reflexivity. }
      rewrite St. reflexivity.
    - rewrite !app_assoc_s. change ("<?" ++ ?x) with (String "<" (String "?" x)). cbn [Xml_model.run]. change (step x_init "<") with (Go (mkx First "" [] false [])). cbv iota beta.
      change (step (mkx First "" [] false []) "?") with (Go (mkx Decl "" [] false [])). cbv iota beta. rewrite run_app_s, run_decl by (try reflexivity; exact Hd).
      change ("?>" ++ ?x) with (String "?" (String ">" x)). cbn [Xml_model.run]. change (step (mkx Decl "" [] false []) "?") with (Go (mkx DeclQ "" [] false [])). cbv iota beta.
      change (step (mkx DeclQ "" [] false []) ">") with (Go (mkx (Text 0) "" [] false [])). cbv iota beta. destruct (run_blank b 0 "" false [] Hb) as (k & E). exists k. rewrite run_app_s, E. reflexivity.
  Qed.
  Hypothesis Hfair : fair_cut solid cut.
  Lemma reading_tree h t a ch b : heading h -> blank b -> safe (PElem t a ch) -> exists p', recut solid (PElem t a ch) p' /\ reading_of cut (h ++ xml (PElem t a ch) ++ b) = Whole (ser_plain p').
  Proof.
    intros Hh Hb HS. destruct (run_heading h t a ch b Hh) as (k & E); [exact (proj1 HS)|].
    destruct (reads_all cut (proj1 Hfair) (proj2 Hfair) (PElem t a ch) eq_refl HS [] [] false k "" (fun _ => eq_refl)) as (p' & F & R).
    exists p'. split; [exact F|]. unfold reading_of. destruct (run_blank b 0 "" true (app (app [] (map Chars (flushed cut [] ""))) (ser_plain p')) Hb) as (k' & G).
    rewrite <- R, <- E in G. rewrite (run_norm _ _ _ _ G). reflexivity.
  Qed.
End Whole.

(** the callbacks give records or raise an exception *)
Definition answer_of (r : res (list pd)) : answer := match r with Ok rs => Records rs | Err e => Raised e end.
Lemma nonempty_xml h t a ch b : (h ++ xml (PElem t a ch) ++ b =? "") = false.
Proof. destruct h; reflexivity. Qed.
(** The text of a document is read as the document, whole texts, whatever the pieces. *)
Theorem C183_text : forall cut tf tm so ia iq h d b, fair_cut solid cut -> heading h -> blank b -> doc_ok d -> (forall ps, d <> DText ps) -> safe (plain_of_doc d) ->
  parse_quakeml_file cut tf tm so ia iq (h ++ xml (plain_of_doc d) ++ b) = answer_of (parse_quakeml tf tm so ia iq (ser_doc (merge_doc d))) /\
  parse_quakeml_string cut tf tm so ia iq (h ++ xml (plain_of_doc d) ++ b) = answer_of (parse_quakeml tf tm so ia iq (ser_doc (merge_doc d))).
Proof.
  intros cut tf tm so ia iq h d b Hc Hh Hb Hok Hd HS.
  assert (P : exists t a ch, plain_of_doc d = PElem t a ch) by (destruct d as [ps|t a ch|e]; [destruct (Hd ps eq_refl)|eexists _, _, _; reflexivity|eexists _, _, _; reflexivity]).
  destruct P as (t & a & ch & P). rewrite P in *. destruct (reading_tree cut Hc h t a ch b Hh Hb HS) as (p' & F & E). rewrite <- P in F. destruct (doc_back d p' F) as (d' & <- & R).
  unfold parse_quakeml_string. rewrite nonempty_xml. unfold parse_quakeml_file. rewrite E. unfold handled. rewrite ser_doc_plain, (parse_rc tf tm so ia iq d d' Hok R). split; destruct (parse_quakeml _ _ _ _ _ _); reflexivity.
Qed.
Print Assumptions C183_text.
