(** * C192: white space around the texts of a QuakeML document *)
From Coq Require Import ZArith List Bool String Ascii Lia.
From Verif Require Import Base Dict QuakeML_model.
Import ListNotations.
Open Scope string_scope.

(** white space of Python's [str.strip] up to character 255: tab, line feed, vertical tab, form feed,
    carriage return, the four separators, blank, next line and no-break space *)
Definition white (c : ascii) : Prop := In (nat_of_ascii c) [9; 10; 11; 12; 13; 28; 29; 30; 31; 32; 133; 160]%nat.
Inductive all_white : string -> Prop :=
| aw_nil : all_white ""
| aw_cons c s : white c -> all_white s -> all_white (String c s).
(** [t] is [s] with white space added before and after *)
Definition padded (s t : string) : Prop := exists a b, all_white a /\ all_white b /\ t = a ++ s ++ b.
(** the callbacks [es'] are the callbacks [es] with white space added around the texts and with
    texts of white space only added anywhere *)
Inductive spaced : list sax -> list sax -> Prop :=
| sp_nil : spaced [] []
| sp_tag e es es' : (forall c, e <> Chars c) -> spaced es es' -> spaced (e :: es) (e :: es')
| sp_text s t es es' : padded s t -> spaced es es' -> spaced (Chars s :: es) (Chars t :: es')
| sp_blank t es es' : all_white t -> spaced es es' -> spaced es (Chars t :: es').

Lemma white_is c : is_space c = true <-> white c.
Proof.
  unfold is_space, white. set (n := nat_of_ascii c). rewrite !orb_true_iff, !andb_true_iff, !Nat.leb_le, !Nat.eqb_eq. cbn [In]. lia.
Qed.
Lemma lstrip_white a s : all_white a -> lstrip (a ++ s) = lstrip s.
Proof. induction 1 as [|c a H A IH]; [reflexivity|]. cbn. rewrite (proj2 (white_is c) H). exact IH. Qed.
Lemma rstrip_all a : all_white a -> rstrip a = "".
Proof. induction 1 as [|c a H A IH]; [reflexivity|]. cbn. rewrite IH, (proj2 (white_is c) H). reflexivity. Qed.
Lemma rstrip_white s b : all_white b -> rstrip (s ++ b) = rstrip s.
Proof. intros Hb. induction s as [|c s IH]; [apply rstrip_all; exact Hb|]. cbn. rewrite IH. reflexivity. Qed.
Lemma lstrip_all a : all_white a -> lstrip a = "".
Proof. induction 1 as [|c a H A IH]; [reflexivity|]. cbn. rewrite (proj2 (white_is c) H). exact IH. Qed.
Lemma lstrip_app s b : lstrip (s ++ b) = lstrip s ++ b \/ lstrip s = "" /\ lstrip (s ++ b) = lstrip b.
Proof. induction s as [|c s IH]; [right; auto|]. cbn. destruct (is_space c); [exact IH|left; reflexivity]. Qed.
Lemma strip_all a : all_white a -> strip a = "".
Proof. intros H. unfold strip. rewrite (lstrip_all a H). reflexivity. Qed.
Lemma strip_padded s t : padded s t -> strip t = strip s.
Proof.
  intros (a & b & Ha & Hb & ->). unfold strip. rewrite lstrip_white by exact Ha. destruct (lstrip_app s b) as [E|[E1 E2]].
  - rewrite E. apply rstrip_white. exact Hb.
  - rewrite E1, E2, (lstrip_all b Hb). reflexivity.
Qed.
(** what remains of a text: it neither begins nor ends with white space, and only white space was
    removed at its ends *)
Theorem C192_trimmed : forall s, padded (strip s) s /\
  (forall c t, strip s = String c t -> ~ white c) /\ (forall t c, strip s = t ++ String c "" -> ~ white c).
Proof.
  assert (L : forall s, exists a, all_white a /\ s = a ++ lstrip s /\ forall c t, lstrip s = String c t -> ~ white c).
  { induction s as [|c s (a & Ha & E & F)]; [exists ""; split; [constructor|split; [reflexivity|discriminate]]|]. cbn. destruct (is_space c) eqn:W.
    - exists (String c a). split; [constructor; [apply white_is; exact W|exact Ha]|]. split; [cbn; rewrite <- E; reflexivity|exact F].
    - exists "". split; [constructor|]. split; [reflexivity|]. intros c' t [= <- <-] H. apply white_is in H. congruence. }
  assert (R : forall s, exists b, all_white b /\ s = rstrip s ++ b /\ (forall t c, rstrip s = t ++ String c "" -> ~ white c) /\
            (forall c t, rstrip s = String c t -> exists u, s = String c u)).
  { induction s as [|c s (b & Hb & E & F & G)]; [exists ""; split; [constructor|split; [reflexivity|split; [intros [|? ?]; discriminate|discriminate]]]|]. cbn.
    destruct (rstrip s) as [|c1 r] eqn:Q.
    - cbn in E. subst b. destruct (is_space c) eqn:W.
      + exists (String c s). split; [constructor; [apply white_is; exact W|exact Hb]|]. split; [reflexivity|split; [intros [|? ?]; discriminate|discriminate]].
      + exists s. split; [exact Hb|]. split; [reflexivity|]. split; [|intros c' t [= <- <-]; eauto].
        intros t c' H K. assert (c' = c) by (destruct t as [|d t]; [injection H as ->; reflexivity|injection H as _ H; destruct t; discriminate]). subst c'. apply white_is in K. congruence.
    - exists b. split; [exact Hb|]. split; [cbn; rewrite E at 1; reflexivity|]. split; [|intros c' t [= <- <-]; eauto].
      intros [|d t] c' H; [discriminate|]. injection H as _ H. apply (F t). exact H. }
  intros s. destruct (L s) as (a & Ha & Ea & Fa). destruct (R (lstrip s)) as (b & Hb & Eb & Fb & Gb). split; [|split].
  - exists a, b. split; [exact Ha|]. split; [exact Hb|]. unfold strip. rewrite <- Eb. exact Ea.
  - intros c t H. destruct (Gb c t H) as (u & Hu). apply (Fa c u Hu).
  - exact Fb.
Qed.
Print Assumptions C192_trimmed.

(** indentation, line breaks and blanks around the values change neither the records nor the failures *)
Theorem C192_spacing : forall tf tm so ia iq es es', spaced es es' -> parse_quakeml tf tm so ia iq es' = parse_quakeml tf tm so ia iq es.
Proof.
  intros tf tm so ia iq es es' H. unfold parse_quakeml. apply (f_equal (rmap h_cat)). generalize (h_init []). 
  induction H as [|e es es' _ _ IH|s t es es' P _ IH|t es es' B _ IH]; intros h; cbn [handle_all].
  - reflexivity.
  - destruct (handle tf tm so ia iq h e); cbn [rbind]; [apply IH|reflexivity].
  - cbn [handle]. rewrite (strip_padded s t P). match goal with |- rbind ?x _ = _ => destruct x end; cbn [rbind]; [apply IH|reflexivity].
  - cbn [handle]. rewrite (strip_all t B). cbn [String.eqb negb andb rbind]. apply IH.
Qed.
Print Assumptions C192_spacing.

Definition nl : string := String (ascii_of_nat 13) (String (ascii_of_nat 10) "").
Example C192_case : spaced [Start "event" []; Start "type" []; Chars "earthquake"; End "type"; End "event"]
  [Start "event" []; Chars nl; Start "type" []; Chars (nl ++ "earthquake" ++ " "); End "type"; End "event"; Chars nl].
Proof.
  assert (W : all_white nl) by (repeat constructor; unfold white; cbn; tauto).
  apply sp_tag; [discriminate|]. apply sp_blank; [exact W|]. apply sp_tag; [discriminate|]. apply sp_text.
  { exists nl, " ". split; [exact W|]. split; [repeat constructor; unfold white; cbn; tauto|reflexivity]. }
  apply sp_tag; [discriminate|]. apply sp_tag; [discriminate|]. apply sp_blank; [exact W|]. constructor.
Qed.
