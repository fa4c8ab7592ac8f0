(** * C99 for every text: what is stored is the joined stripped pieces *)
From Coq Require Import List Bool String Ascii Lia ZArith QArith.
From Verif Require Import Base Dict QuakeML_model Spec_QuakeML QuakeML_proofs Props_QuakeML.
Import ListNotations.
Open Scope string_scope.

Lemma values_visible k ps : values (visible strip k ps) k = filter (fun s => negb (s =? "")) (map strip ps).
Proof.
  unfold values, visible. induction ps as [|p ps IH]; [reflexivity|]. cbn [flat_map map filter]. rewrite flat_map_app, IH.
  destruct (strip p =? ""); cbn [negb flat_map fst snd app]; [reflexivity|]. rewrite String.eqb_refl. reflexivity.
Qed.
Lemma join_nonblank l : join (filter (fun s => negb (s =? "")) l) = join l.
Proof. induction l as [|s l IH]; [reflexivity|]. cbn [filter]. destruct (s =? "") eqn:E; cbn [negb]; [apply String.eqb_eq in E; subst s|]; cbn [join fold_right]; fold (join l); fold (join (filter (fun s => negb (s =? "")) l)); rewrite IH; reflexivity. Qed.
(** the type of the event of [quarry ps]: the pieces, each stripped, joined *)
Lemma quarry_type tf tm so ia iq ps : (exists p, In p ps /\ strip p <> "") ->
  exists r, parse_quakeml tf tm so ia iq (ser_doc (quarry ps)) = Ok [r] /\ dget r "event_type" = Some (Some (join (map strip ps))).
Proof.
  intros (p & Hp & Hne). unfold parse_quakeml. rewrite run_doc by (cbn; repeat split; repeat constructor).
  cbn [events_of quarry flat_map app map_res].
  unfold record. set (ev := absorb [] _).
  assert (E : dget ev "type" = Some (Some (join (map strip ps)))).
  { unfold ev. rewrite absorb_field. unfold field, event_fields. cbn [ev_attrs ev_children public attr String.eqb Ascii.eqb Bool.eqb flat_map texts append app].
    rewrite !app_nil_r. cbn [values flat_map fst snd String.eqb Ascii.eqb Bool.eqb app]. fold (values (visible strip "type" ps) "type").
    rewrite values_visible. rewrite <- (join_nonblank (map strip ps)).
    destruct (filter _ (map strip ps)) as [|v vs] eqn:F; [|reflexivity].
    assert (I : In (strip p) (filter (fun s => negb (s =? "")) (map strip ps))).
    { apply filter_In. split; [apply in_map; exact Hp|]. apply negb_true_iff, String.eqb_neq. exact Hne. }
    rewrite F in I. destruct I. }
  assert (D : forall k, k = "preferredOriginID" \/ k = "preferredMagnitudeID" -> dget ev k = None).
  { intros k Hk. unfold ev. rewrite absorb_field. unfold field, event_fields. cbn [ev_attrs ev_children public attr String.eqb Ascii.eqb Bool.eqb flat_map texts append app].
    rewrite !app_nil_r.
    assert (V : forall qs, values (visible strip "type" qs) k = []).
    { induction qs as [|q qs IHq]; [reflexivity|]. unfold visible, values in *. cbn [flat_map]. rewrite flat_map_app, IHq.
      destruct (strip q =? ""); [reflexivity|]. destruct Hk as [-> | ->]; reflexivity. }
    cbn [values flat_map fst snd]. fold (values (visible strip "type" ps) k). rewrite V. destruct Hk as [-> | ->]; reflexivity. }
  cbn [origin_fields magnitude_fields ev_children flat_map map app]. unfold parse_to_dict, get_default.
  rewrite (D "preferredOriginID") by auto. rewrite (D "preferredMagnitudeID") by auto. 
  cbn [select_origin_by_id select_magnitude_by_id find_id filter_res rbind]. cbn [extract_secondary rbind event_mappings map fst snd rmap handle_all h_cat h_init app].
  rewrite E. eexists. split; [reflexivity|]. destruct iq; vm_compute; reflexivity.
Qed.

(** Two words separated by a blank: read in one piece the blank is there, read in two pieces
    (cut before or after the blank) it is gone. *)
Definition word (s : string) : Prop := s <> "" /\ forall a x b, s = a ++ String x b -> is_space x = false.
Lemma word_strip s : word s -> strip s = s.
Proof.
  intros [_ H]. rewrite solid_strip; [apply nows_id; intros a x b E; exact (H a x b E)|].
  intros a x b y c E _ _ b1 z b2 Eb. subst b. apply (H (a ++ String x b1) z (b2 ++ String y c)). rewrite E. rewrite app_assoc_s. cbn. rewrite app_assoc_s. reflexivity.
Qed.
Lemma rstrip_last s : (exists a x, s = a ++ String x "" /\ is_space x = false) -> rstrip s = s.
Proof.
  intros (a & x & -> & H). induction a as [|c a IH]; cbn [append rstrip]; [rewrite H; reflexivity|].
  rewrite IH. destruct a; reflexivity.
Qed.
Lemma rstrip_blank s : (exists a x, s = a ++ String x "" /\ is_space x = false) -> rstrip (s ++ " ") = s.
Proof.
  intros (a & x & -> & H). induction a as [|c a IH]; cbn [append rstrip].
  - change (is_space " ") with true. cbn. rewrite H. reflexivity.
  - rewrite IH. destruct a; reflexivity.
Qed.
Lemma word_first s : word s -> exists x t, s = String x t /\ is_space x = false.
Proof. intros [Hn H]. destruct s as [|x t]; [congruence|]. exists x, t. split; [reflexivity|]. exact (H "" x t eq_refl). Qed.
Lemma last_char s : s <> "" -> exists a x, s = a ++ String x "".
Proof.
  induction s as [|c s IH]; [congruence|]. intros _. destruct s as [|c' s]; [exists "", c; reflexivity|]. destruct IH as (a & x & E); [discriminate|].
  exists (String c a), x. cbn. rewrite <- E. reflexivity.
Qed.
Lemma word_last s : word s -> exists a x, s = a ++ String x "" /\ is_space x = false.
Proof. intros [Hn H]. destruct (last_char s Hn) as (a & x & E). exists a, x. split; [exact E|]. exact (H a x "" E). Qed.
Theorem C99_every_text_refuted : forall tf tm so ia iq u v, word u -> word v ->
  exists r r' r'',
  parse_quakeml tf tm so ia iq (ser_doc (quarry [u ++ " " ++ v])) = Ok [r] /\ dget r "event_type" = Some (Some (u ++ " " ++ v)) /\
  parse_quakeml tf tm so ia iq (ser_doc (quarry [u ++ " "; v])) = Ok [r'] /\ dget r' "event_type" = Some (Some (u ++ v)) /\
  parse_quakeml tf tm so ia iq (ser_doc (quarry [u; " " ++ v])) = Ok [r''] /\ dget r'' "event_type" = Some (Some (u ++ v)) /\
  u ++ v <> u ++ " " ++ v.
Proof.
  intros tf tm so ia iq u v Hu Hv. destruct (word_first u Hu) as (x & t & Eu & Hx). destruct (word_first v Hv) as (y & t' & Ev & Hy).
  destruct (word_last u Hu) as (a & z & Eu' & Hz). destruct (word_last v Hv) as (a' & z' & Ev' & Hz').
  assert (S1 : strip (u ++ " " ++ v) = u ++ " " ++ v).
  { unfold strip. rewrite Eu. cbn [append lstrip]. rewrite Hx. change (String x (t ++ String " " v)) with (String x t ++ " " ++ v). rewrite <- Eu.
    apply rstrip_last. exists (u ++ " " ++ a'), z'. rewrite Ev'. split; [|exact Hz']. rewrite !app_assoc_s. reflexivity. }
  assert (S2 : strip (u ++ " ") = u).
  { unfold strip. rewrite Eu. cbn [append lstrip]. rewrite Hx. change (String x (t ++ " ")) with (String x t ++ " "). rewrite <- Eu.
    apply rstrip_blank. exists a, z. auto. }
  assert (S3 : strip (" " ++ v) = v).
  { change (strip (" " ++ v)) with (strip v). apply word_strip. exact Hv. }
  destruct (quarry_type tf tm so ia iq [u ++ " " ++ v]) as (r & P1 & D1).
  { exists (u ++ " " ++ v). split; [left; reflexivity|]. rewrite S1, Eu. discriminate. }
  destruct (quarry_type tf tm so ia iq [u ++ " "; v]) as (r' & P2 & D2).
  { exists v. split; [right; left; reflexivity|]. rewrite (word_strip v Hv). apply Hv. }
  destruct (quarry_type tf tm so ia iq [u; " " ++ v]) as (r'' & P3 & D3).
  { exists u. split; [left; reflexivity|]. rewrite (word_strip u Hu). apply Hu. }
  exists r, r', r''. cbn [map join fold_right] in D1, D2, D3. rewrite S1, app_nil_s in D1. rewrite S2, (word_strip v Hv), app_nil_s in D2. rewrite S3, (word_strip u Hu), app_nil_s in D3.
  repeat (split; [assumption|]). intros E. apply app_inv_s in E. apply (f_equal String.length) in E. cbn in E. lia.
Qed.
Print Assumptions C99_every_text_refuted.
Example C99_words : word "quarry" /\ word "blast".
Proof.
  split; (split; [discriminate|]); intros a x b E;
  do 7 (destruct a as [|? a]; [cbn in E; try discriminate E; injection E as <- _; reflexivity|cbn in E; try discriminate E; injection E as _ E]).
Qed.
