(** * Escaped documents are one of the spellings *)
From Coq Require Import List Bool String Ascii Arith Lia ZArith QArith.
From Verif Require Import Base Dict QuakeML_model Spec_QuakeML QuakeML_proofs Props_QuakeML Spec_Export Spec_Xml Spec_Spelling.
Import ListNotations.
Open Scope string_scope.

Lemma refers_lit c r : In (c, r) entities -> refers c ("&" ++ r ++ ";").
Proof. apply refers_name. Qed.
Ltac entity_case := cbn; tauto.
Lemma esc_spelled s : all printable s = true -> forall k, spelled false k s (esc false s).
Proof.
  induction s as [|c s IH]; intros H k; [constructor|]. cbn [all] in H. apply andb_true_iff in H. destruct H as [Hc H]. cbn [esc]. unfold esc_char.
  destruct (Ascii.eqb_spec c "&") as [->|N1]; [apply (sp_ref false k "&" "&amp;" s); [apply (refers_lit "&" "amp"); entity_case|apply IH; exact H]|].
  destruct (Ascii.eqb_spec c "<") as [->|N2]; [apply (sp_ref false k "<" "&lt;" s); [apply (refers_lit "<" "lt"); entity_case|apply IH; exact H]|].
  destruct (Ascii.eqb_spec c ">") as [->|N3]; [apply (sp_ref false k ">" "&gt;" s); [apply (refers_lit ">" "gt"); entity_case|apply IH; exact H]|].
  cbn [andb append]. apply sp_char; [|congruence|apply IH; exact H]. unfold text_char. rewrite (proj2 (Ascii.eqb_neq c "<") N2), (proj2 (Ascii.eqb_neq c "&") N1). exact Hc.
Qed.
Lemma esc_value s : all (fun c => 32 <=? code c)%nat s = true -> value_spelled quote s (esc true s).
Proof.
  induction s as [|c s IH]; intros H; [constructor|]. cbn [all] in H. apply andb_true_iff in H. destruct H as [Hc H]. cbn [esc]. unfold esc_char.
  destruct (Ascii.eqb_spec c "&") as [->|N1]; [apply (vs_ref quote "&" "&amp;" s); [apply (refers_lit "&" "amp"); entity_case|apply IH; exact H]|].
  destruct (Ascii.eqb_spec c "<") as [->|N2]; [apply (vs_ref quote "<" "&lt;" s); [apply (refers_lit "<" "lt"); entity_case|apply IH; exact H]|].
  destruct (Ascii.eqb_spec c ">") as [->|N3]; [apply (vs_ref quote ">" "&gt;" s); [apply (refers_lit ">" "gt"); entity_case|apply IH; exact H]|].
  destruct (Ascii.eqb_spec c quote) as [->|N4]; [apply (vs_ref quote quote "&quot;" s); [apply (refers_lit quote "quot"); entity_case|apply IH; exact H]|].
  cbn [andb append]. apply vs_char; [|apply Nat.leb_le; exact Hc|exact N4|apply IH; exact H]. unfold text_char. rewrite (proj2 (Ascii.eqb_neq c "<") N2), (proj2 (Ascii.eqb_neq c "&") N1), Hc. reflexivity.
Qed.
Lemma esc_attr kv : all (fun c => 32 <=? code c)%nat (snd kv) = true -> attr_spelled kv (xml_esc_attr kv).
Proof.
  intros H. exists " ", "", "", quote, (esc true (snd kv)). repeat split; try discriminate; try reflexivity; [left; reflexivity|apply esc_value; exact H].
Qed.
Lemma esc_written p : writable_tree p -> written solid p (xml_esc p).
Proof.
  induction p as [ps|t a ch IH] using plain_ind'; intros H.
  - apply (w_text solid false); [apply esc_spelled; exact H|discriminate].
  - cbn [writable_tree] in H. destruct H as (H1 & [H2 H3] & H4 & H5). cbn [xml_esc]. unfold xml_esc_attrs. apply (w_elem solid t a ch (map xml_esc_attr a) (map xml_esc ch) "" "").
    + split; [exact H1|]. split; [exact H2|]. eapply Forall_impl; [|exact H3]. intros kv [A _]. exact A.
    + clear - H3. induction a as [|kv a IH]; [constructor|]. inversion_clear H3 as [|? ? [A B] C]. cbn [map]. constructor; [apply esc_attr; exact B|apply IH; exact C].
    + reflexivity.
    + reflexivity.
    + exact H4.
    + clear - IH H5. induction ch as [|p ch IHc]; [constructor|]. inversion_clear IH as [|? ? A B]. destruct H5 as [H5 H6]. cbn [map]. constructor; [apply A; exact H5|apply IHc; assumption].
Qed.
