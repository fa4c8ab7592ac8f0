(** * Trees whose texts come in other pieces *)
From Coq Require Import List Bool String Ascii Arith Lia ZArith QArith.
From Verif Require Import Base Dict QuakeML_model Spec_QuakeML QuakeML_proofs Props_QuakeML Spec_Export Spec_Xml.
Import ListNotations.
Open Scope string_scope.

Notation rc := (recut solid).
Inductive rcc : child -> child -> Prop :=
| rcc_plain p p' : rc p p' -> rcc (Plain p) (Plain p')
| rcc_origin a ch ch' : Forall2 rc ch ch' -> rcc (Origin a ch) (Origin a ch')
| rcc_magnitude a ch ch' : Forall2 rc ch ch' -> rcc (Magnitude a ch) (Magnitude a ch').
Definition rce (e e' : event) : Prop := ev_attrs e' = ev_attrs e /\ Forall2 rcc (ev_children e) (ev_children e').
Inductive rcd : doc -> doc -> Prop :=
| rcd_text ps ps' : join ps' = join ps -> rcd (DText ps) (DText ps')
| rcd_elem t a ch ch' : Forall2 rcd ch ch' -> rcd (DElem t a ch) (DElem t a ch')
| rcd_event e e' : rce e e' -> rcd (DEvent e) (DEvent e').

Lemma child_back c p' : rc (plain_of_child c) p' -> exists c', plain_of_child c' = p' /\ rcc c c'.
Proof.
  destruct c as [p|a ch|a ch]; cbn [plain_of_child]; intros H.
  - exists (Plain p'). split; [reflexivity|constructor; exact H].
  - inversion_clear H. exists (Origin a ch'). split; [reflexivity|constructor; assumption].
  - inversion_clear H. exists (Magnitude a ch'). split; [reflexivity|constructor; assumption].
Qed.
Lemma list_back {A B : Type} (f : A -> B) (R : B -> B -> Prop) (Q : A -> A -> Prop) l : forall l', Forall2 R (map f l) l' -> Forall (fun x => forall y, R (f x) y -> exists x', f x' = y /\ Q x x') l ->
  exists k, map f k = l' /\ Forall2 Q l k.
Proof.
  induction l as [|x l IH]; intros l' H HF; cbn [map] in H; inversion H as [|? ? ? ? H1 H2]; subst; [exists []; split; [reflexivity|constructor]|]. inversion_clear HF as [|? ? F1 F2].
  destruct (F1 _ H1) as (x' & <- & Qx). destruct (IH _ H2 F2) as (k & <- & Qk). exists (x' :: k). split; [reflexivity|constructor; assumption].
Qed.
Lemma doc_back d : forall p', rc (plain_of_doc d) p' -> exists d', plain_of_doc d' = p' /\ rcd d d'.
Proof.
  induction d as [ps|t a ch IH|e] using doc_ind'; intros p' H; cbn [plain_of_doc] in H.
  - inversion_clear H. exists (DText ps'). split; [reflexivity|constructor; assumption].
  - inversion_clear H as [|? ? ? ch' F]. destruct (list_back _ _ _ _ _ F IH) as (k & <- & Q). exists (DElem t a k). split; [reflexivity|constructor; exact Q].
  - inversion_clear H as [|? ? ? ch' F]. destruct (list_back plain_of_child rc rcc _ _ F) as (k & <- & Q).
    { apply Forall_forall. intros c _ y. apply child_back. }
    exists (DEvent (mkevent (ev_attrs e) k)). split; [reflexivity|constructor; split; [reflexivity|exact Q]].
Qed.
Lemma ser_child_plain c : ser_plain (plain_of_child c) = ser_child c.
Proof. destruct c; reflexivity. Qed.
Lemma ser_doc_plain d : ser_plain (plain_of_doc d) = ser_doc d.
Proof.
  induction d as [ps|t a ch IH|e] using doc_ind'; [reflexivity| |]; cbn [plain_of_doc ser_plain ser_doc]; [|unfold ser_event]; f_equal; f_equal.
  - induction ch as [|c ch IHc]; [reflexivity|]. inversion_clear IH as [|? ? F1 F2]. cbn [map flat_map]. rewrite F1, IHc by exact F2. reflexivity.
  - induction (ev_children e) as [|c l IHc]; [reflexivity|]. cbn [map flat_map]. rewrite ser_child_plain, IHc. reflexivity.
Qed.
Lemma rc_ok p : forall p', rc p p' -> plain_ok p -> plain_ok p'.
Proof.
  induction p as [ps|t a ch IH] using plain_ind'; intros p' H K; inversion_clear H as [|? ? ? ch' F]; [exact I|]. cbn [plain_ok] in *. destruct K as [K1 K2]. split; [exact K1|].
  induction F as [|x y l l' Hx HF IHF]; [exact I|]. inversion_clear IH as [|? ? F1 F2]. cbn [fold_right] in *. destruct K2. split; auto.
Qed.
Lemma rc_list_ok l l' : Forall2 rc l l' -> Forall plain_ok l -> Forall plain_ok l'.
Proof. induction 1; intros K; [constructor|]. inversion_clear K. constructor; [eapply rc_ok; eassumption|auto]. Qed.
Lemma rcc_ok c c' : rcc c c' -> child_ok c -> child_ok c'.
Proof. intros H. inversion_clear H; cbn [child_ok]; [eapply rc_ok; eassumption|apply rc_list_ok; assumption|apply rc_list_ok; assumption]. Qed.
Lemma rcd_ok d : forall d', rcd d d' -> doc_ok d -> doc_ok d'.
Proof.
  induction d as [ps|t a ch IH|e] using doc_ind'; intros d' H K; [inversion_clear H; exact I|inversion_clear H as [|? ? ? ch' F|]|inversion_clear H as [| |? e' F]].
  - cbn [doc_ok] in *. destruct K as [K1 K2]. split; [exact K1|]. induction F as [|x y l l' Hx HF IHF]; [exact I|]. inversion_clear IH as [|? ? F1 F2]. cbn [fold_right] in *. destruct K2. split; auto.
  - cbn [doc_ok] in *. destruct F as [_ F]. induction F; [constructor|]. inversion_clear K. constructor; [eapply rcc_ok; eassumption|auto].
Qed.
Lemma texts_rc p : forall p', rc p p' -> forall d k, absorb d (texts strip k p') = absorb d (texts strip k (merge_plain p)).
Proof.
  induction p as [ps|t a ch IH] using plain_ind'; intros p' H d k; inversion_clear H as [? ? E J|? ? ? ch' F].
  - cbn [texts merge_plain]. destruct J as [J| ->]; [|reflexivity]. rewrite visible_whole by (rewrite E; exact J). unfold whole. rewrite E. reflexivity.
  - cbn [texts merge_plain]. revert d. induction F as [|x y l l' Hx HF IHF]; intros d; [reflexivity|]. inversion_clear IH as [|? ? F1 F2]. cbn [flat_map map]. rewrite !absorb_app, (F1 _ Hx). apply IHF. exact F2.
Qed.
Lemma texts_rc_list l l' : Forall2 rc l l' -> forall d k, absorb d (flat_map (texts strip k) l') = absorb d (flat_map (texts strip k) (map merge_plain l)).
Proof. induction 1 as [|x y l l' Hx HF IH]; intros d k; [reflexivity|]. cbn [flat_map map]. rewrite !absorb_app, (texts_rc x y Hx). apply IH. Qed.
Lemma record_rc tf tm so ia iq e e' : rce e e' -> record tf tm so ia iq e' = record tf tm so ia iq (merge_event e).
Proof.
  intros [Ea F]. unfold record. f_equal.
  - unfold event_fields, merge_event. cbn [ev_attrs ev_children]. rewrite Ea, !absorb_app. set (d := absorb [] (public "" (ev_attrs e))). clearbody d. revert d.
    induction F as [|c c' l l' Hc HF IH]; intros d; [reflexivity|]. cbn [flat_map map]. rewrite !absorb_app. inversion Hc as [p p' Hp|a ch ch' Hch|a ch ch' Hch]; subst; cbn [merge_child]; [|apply IH|apply IH]. rewrite (texts_rc p p' Hp). apply IH.
  - unfold origin_fields, merge_event. cbn [ev_children]. induction F as [|c c' l l' Hc HF IH]; [reflexivity|]. cbn [flat_map map]. rewrite !map_app, IH. f_equal.
    inversion Hc as [p p' Hp|a ch ch' Hch|a ch ch' Hch]; subst; cbn [merge_child]; try reflexivity. cbn [map]. f_equal. unfold node_fields. rewrite !absorb_app. apply texts_rc_list. exact Hch.
  - unfold magnitude_fields, merge_event. cbn [ev_children]. induction F as [|c c' l l' Hc HF IH]; [reflexivity|]. cbn [flat_map map]. rewrite !map_app, IH. f_equal.
    inversion Hc as [p p' Hp|a ch ch' Hch|a ch ch' Hch]; subst; cbn [merge_child]; try reflexivity. cbn [map]. f_equal. unfold node_fields. rewrite !absorb_app. apply texts_rc_list. exact Hch.
Qed.
Lemma events_rc d : forall d', rcd d d' -> Forall2 rce (events_of d) (events_of d').
Proof.
  induction d as [ps|t a ch IH|e] using doc_ind'; intros d' H; [inversion_clear H; constructor|inversion_clear H as [|? ? ? ch' F|]|inversion_clear H as [| |? e' F]].
  - cbn [events_of]. induction F as [|x y l l' Hx HF IHF]; [constructor|]. inversion_clear IH as [|? ? F1 F2]. cbn [flat_map]. apply Forall2_app; auto.
  - constructor; [exact F|constructor].
Qed.
Lemma parse_docs tf tm so ia iq d : doc_ok d -> parse_quakeml tf tm so ia iq (ser_doc d) = map_res (record tf tm so ia iq) (events_of d).
Proof.
  intros H. unfold parse_quakeml. rewrite run_doc by exact H. destruct (map_res _ _); reflexivity.
Qed.
(** the result is that for whole texts *)
Lemma parse_rc tf tm so ia iq d d' : doc_ok d -> rcd d d' -> parse_quakeml tf tm so ia iq (ser_doc d') = parse_quakeml tf tm so ia iq (ser_doc (merge_doc d)).
Proof.
  intros Hok H. rewrite (parse_docs _ _ _ _ _ d') by (eapply rcd_ok; eassumption). rewrite parse_docs by (apply merge_doc_ok; exact Hok). rewrite events_merge.
  apply events_rc in H. induction H as [|e e' l l' He HF IH]; [reflexivity|]. cbn [map map_res]. rewrite (record_rc _ _ _ _ _ e e' He), IH. reflexivity.
Qed.
