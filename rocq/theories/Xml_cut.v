(** * Texts that end too soon *)
From Coq Require Import List Bool String Ascii Arith Lia ZArith QArith.
From Verif Require Import Base Dict QuakeML_model Spec_QuakeML QuakeML_proofs Props_QuakeML Spec_Export Spec_Xml Xml_model Xml_proofs.
Import ListNotations.
Open Scope string_scope.

(** ** the handler *)
Section Handler.
  Context (tf : option string -> res Q) (tm : option string -> res Z) (so : list (option string) -> list (option string)) (ia iq : bool).
  Notation handle := (handle tf tm so ia iq).
  Notation hrun := (handle_all tf tm so ia iq).
  Lemma put_cat s k l : h_cat (put_list s k l) = h_cat s.
  Proof. unfold put_list. destruct (k =? "event"); [reflexivity|]. destruct (k =? "origin"); reflexivity. Qed.
  Lemma setter_cat s k v a s' : setter s k v a = Ok s' -> h_cat s' = h_cat s.
  Proof. unfold setter. destruct (rev (get_list s k)); [discriminate|]. destruct (add_value p (h_loc s) a v); cbn [rbind]; [|discriminate]. intros [= <-]. apply put_cat. Qed.
  Lemma handle_cat s e s' : handle s e = Ok s' -> exists l, h_cat s' = app (h_cat s) l.
  Proof.
    assert (N : forall l : list pd, l = app l []) by (intros l; rewrite app_nil_r; reflexivity).
    destruct e as [tag a|tag|c]; cbn [QuakeML_model.handle].
    - destruct (special tag).
      + set (s1 := put_list _ tag _). assert (C : h_cat s1 = h_cat s) by (unfold s1; rewrite put_cat; reflexivity). destruct (dget a "publicID") as [v|].
        * intros H. exists []. rewrite <- N, (setter_cat _ _ _ _ _ H). exact C.
        * intros [= <-]. exists []. rewrite <- N. exact C.
      + destruct (negb _); intros [= <-]; exists []; apply N.
    - destruct (tag =? "event").
      + destruct (rev (h_event s)); [discriminate|]. destruct (parse_to_dict _ _ _ _ _ _ _ _) as [d|]; cbn [rbind]; [|discriminate]. intros [= <-]. exists [d]. reflexivity.
      + set (s1 := if (tag =? "origin") || (tag =? "magnitude") then set_pl s "event" (h_loc s) else s). assert (C : h_cat s1 = h_cat s) by (unfold s1; destruct ((tag =? "origin") || (tag =? "magnitude")); reflexivity). destruct (negb _); intros [= <-]; exists []; rewrite <- N, <- C; reflexivity.
    - destruct (_ && _); [|intros [= <-]; exists []; apply N]. intros H. exists []. rewrite <- N. apply (setter_cat _ _ _ _ _ H).
  Qed.
  Lemma hrun_cat es : forall s s', hrun s es = Ok s' -> exists l, h_cat s' = app (h_cat s) l.
  Proof.
    induction es as [|e es IH]; intros s s'; cbn [handle_all]; [intros [= <-]; exists []; rewrite app_nil_r; reflexivity|]. destruct (handle s e) as [s1|] eqn:E; cbn [rbind]; [|discriminate]. intros H.
    destruct (handle_cat _ _ _ E) as (l & E1). destruct (IH _ _ H) as (l' & E2). exists (app l l'). rewrite E2, E1, app_assoc. reflexivity.
  Qed.
  Lemma hrun_chars_cat ps : forall s s', hrun s (map Chars ps) = Ok s' -> h_cat s' = h_cat s.
  Proof.
    induction ps as [|c ps IH]; intros s s'; cbn [map handle_all]; [intros [= <-]; reflexivity|]. destruct (handle s (Chars c)) as [s1|] eqn:E; cbn [rbind]; [|discriminate]. intros H. rewrite (IH _ _ H).
    cbn [QuakeML_model.handle] in E. destruct (_ && _); [apply (setter_cat _ _ _ _ _ E)|]. injection E as <-. reflexivity.
  Qed.
  (** can the current dictionary take a text? *)
  Definition receives (s : hst) : Prop := exists before d, get_list s (h_parent s) = app before [d] /\ dget d (h_loc s) <> Some None.
  Lemma setter_receives s v s' : setter s (h_parent s) v "" = Ok s' -> receives s.
  Proof.
    unfold setter, receives. destruct (rev (get_list s (h_parent s))) as [|d r] eqn:E; [discriminate|]. intros H. exists (rev r), d. split; [rewrite <- (rev_involutive (get_list _ _)), E; reflexivity|].
    unfold add_value, has in H. rewrite app_nil_s in H. intros K. rewrite K in H. discriminate.
  Qed.
  Lemma receives_setter s v : receives s -> exists s', setter s (h_parent s) v "" = Ok s' /\ receives s'.
  Proof.
    intros (before & d & E & K). unfold setter. rewrite E, rev_app_distr. cbn [rev app]. unfold add_value, has. rewrite app_nil_s. rewrite rev_involutive.
    assert (R : forall w, receives (put_list s (h_parent s) (app before [dset d (h_loc s) (Some w)]))).
    { intros w. destruct (put_parent s (h_parent s) (app before [dset d (h_loc s) (Some w)])) as [P1 P2]. unfold receives. rewrite P1, P2. exists before, (dset d (h_loc s) (Some w)). split; [apply get_put|]. rewrite dget_dset, String.eqb_refl. discriminate. }
    destruct (dget d (h_loc s)) as [[o|]|]; [|congruence|]; cbn [rbind]; eexists; (split; [reflexivity|apply R]).
  Qed.
  Lemma chars_ok ps : forall s, receives s -> exists s', hrun s (map Chars ps) = Ok s'.
  Proof.
    induction ps as [|c ps IH]; intros s R; [eexists; reflexivity|]. cbn [map handle_all QuakeML_model.handle]. destruct (negb (strip c =? "") && negb (h_parent s =? "")); [|cbn [rbind]; apply IH; exact R].
    destruct (receives_setter s (strip c) R) as (s' & -> & R'). cbn [rbind]. apply IH. exact R'.
  Qed.
  Lemma chars_idle ps s : Forall (fun p => strip p = "") ps \/ h_parent s = "" -> hrun s (map Chars ps) = Ok s.
  Proof.
    intros H. induction ps as [|c ps IH]; [reflexivity|]. cbn [map handle_all QuakeML_model.handle]. assert (E : negb (strip c =? "") && negb (h_parent s =? "") = false).
    { destruct H as [H|H]; [inversion_clear H as [|? ? H1 H2]; rewrite H1; reflexivity|rewrite H; apply andb_false_r]. }
    rewrite E. cbn [rbind]. apply IH. destruct H as [H|H]; [inversion_clear H; left; assumption|right; exact H].
  Qed.
  Lemma chars_cases ps : forall s s', hrun s (map Chars ps) = Ok s' -> Forall (fun p => strip p = "") ps \/ h_parent s = "" \/ receives s.
  Proof.
    induction ps as [|c ps IH]; intros s s'; [left; constructor|]. cbn [map handle_all QuakeML_model.handle]. destruct (strip c =? "") eqn:E; cbn [negb andb].
    - cbn [rbind]. intros H. destruct (IH _ _ H) as [F|F]; [left; constructor; [apply String.eqb_eq; exact E|exact F]|right; exact F].
    - destruct (h_parent s =? "") eqn:F; cbn [negb]; [intros _; right; left; apply String.eqb_eq; exact F|]. destruct (setter s (h_parent s) (strip c) "") as [s1|] eqn:G; cbn [rbind]; [|discriminate]. intros _. right. right. eapply setter_receives; exact G.
  Qed.
  Lemma nows_blank s : strip s = "" <-> nows s = "".
  Proof.
    split.
    - intros H. rewrite <- (nows_lstrip s), <- (nows_rstrip (lstrip s)). fold (strip s). rewrite H. reflexivity.
    - intros H. destruct (lstrip_form s) as (a & _ & [E|(x & t & E & Hx)]); [unfold strip; rewrite E; reflexivity|]. exfalso. rewrite <- (nows_lstrip s), E in H. cbn in H. rewrite Hx in H. discriminate.
  Qed.
  Lemma blank_pieces ps : Forall (fun p => strip p = "") ps <-> nows (join ps) = "".
  Proof.
    induction ps as [|p ps IH]; [split; [reflexivity|constructor]|]. rewrite join_cons, nows_app. split.
    - intros H. inversion_clear H as [|? ? H1 H2]. apply nows_blank in H1. apply IH in H2. rewrite H1, H2. reflexivity.
    - intros H. destruct (nows p) eqn:E; [|discriminate]. constructor; [apply nows_blank; exact E|apply IH; exact H].
  Qed.
  (** the beginning of a text can be handled if the text can *)
  Lemma chars_begin ps1 ps2 q s s2 : join ps2 = join ps1 ++ q -> hrun s (map Chars ps2) = Ok s2 -> exists s1, hrun s (map Chars ps1) = Ok s1 /\ h_cat s1 = h_cat s.
  Proof.
    intros E H. assert (K : exists s1, hrun s (map Chars ps1) = Ok s1).
    { destruct (chars_cases _ _ _ H) as [F|[F|F]]; [|eexists; apply chars_idle; right; exact F|apply chars_ok; exact F]. exists s. apply chars_idle. left. apply blank_pieces. apply blank_pieces in F. rewrite E, nows_app in F. destruct (nows (join ps1)); [reflexivity|discriminate]. }
    destruct K as (s1 & K). exists s1. split; [exact K|]. eapply hrun_chars_cat. exact K.
  Qed.
End Handler.

(** ** the reader *)
Section Reader.
  Variable cut : list sax -> string -> list string.
  Notation run := (Xml_model.run cut).
  Notation step := (Xml_model.step cut).
  Notation flush := (Xml_model.flush cut).
  (** text is pending only inside the root element *)
  Definition calm (s : xst) : Prop := x_pend s = "" \/ x_open s <> [].
  Definition chars_of (o : list sax) (w : string) : list sax := map Chars (flushed cut o w).
  Lemma flush_eq s : flush s = app (x_out s) (chars_of (x_out s) (x_pend s)).
  Proof. unfold Xml_model.flush, chars_of, flushed. destruct (x_pend s =? ""); [cbn; rewrite app_nil_r; reflexivity|reflexivity]. Qed.
  Definition moves (s s' : xst) : Prop :=
    (x_out s' = x_out s /\ exists q, x_pend s' = x_pend s ++ q) \/ (exists rest, x_out s' = app (x_out s) (app (chars_of (x_out s) (x_pend s)) rest)).
  Lemma goto_moves s m s' : calm s -> goto s m = Go s' -> moves s s' /\ calm s'.
  Proof. intros C [= <-]. split; [|exact C]. left. split; [reflexivity|]. exists "". cbn. rewrite app_nil_s. reflexivity. Qed.
  Lemma add_moves s m t s' : x_open s <> [] -> add_text s m t = Go s' -> moves s s' /\ calm s'.
  Proof. intros C [= <-]. split; [|right; exact C]. left. split; [reflexivity|]. exists t. reflexivity. Qed.
  Lemma emit_moves s es m open root : moves s (mkx m "" open root (app (flush s) es)) /\ calm (mkx m "" open root (app (flush s) es)).
  Proof. split; [|left; reflexivity]. right. exists es. cbn. rewrite flush_eq, <- app_assoc. reflexivity. Qed.
  (** in references and CDATA sections an element is open *)
  Definition inside (s : xst) : Prop := match x_mode s with Ref _ | CdOpen _ | CData _ => x_open s <> [] | _ => True end.
  Lemma step_inside s c s' : inside s -> step s c = Go s' -> inside s'.
  Proof.
    intros C. unfold Xml_model.step. destruct (illegal c); [discriminate|]. unfold inside in C.
    unfold add_attr, in_text, in_lt, in_bang, in_cdata, in_pi, goto, start_tag, empty_tag, end_tag, pi_tag, add_text.
    destruct (x_mode s) eqn:M; intros E; repeat match type of E with
      | Go _ = Go _ => injection E as <-
      | (if ?b then _ else _) = _ => destruct b
      | match ?x with _ => _ end = _ => destruct x eqn:?
      end; try discriminate; unfold inside; cbn [x_mode x_open]; try exact I; try exact C; try congruence;
      repeat match goal with |- context [if ?b then _ else _] => destruct b end; try exact I; try exact C; congruence.
  Qed.
  Lemma step_moves s c s' : calm s -> inside s -> step s c = Go s' -> moves s s' /\ calm s'.
  Proof.
    intros C J. unfold Xml_model.step. destruct (illegal c); [discriminate|]. unfold inside in J.
    assert (IT : forall k, in_text s k c = Go s' -> moves s s' /\ calm s').
    { intros k. unfold in_text. destruct (Ascii.eqb c LT); [apply goto_moves; exact C|]. destruct (x_open s) as [|m o] eqn:O.
      - destruct (xspace c); [apply goto_moves; exact C|discriminate].
      - destruct (Ascii.eqb c AMP); [apply goto_moves; exact C|]. destruct (_ && _); [discriminate|]. apply add_moves. rewrite O. discriminate. }
    assert (IL : in_lt s c = Go s' -> moves s s' /\ calm s').
    { unfold in_lt. destruct (Ascii.eqb c BANG); [apply goto_moves; exact C|]. destruct (Ascii.eqb c QM); [apply goto_moves; exact C|]. destruct (Ascii.eqb c SLASH); [destruct (x_open s); [discriminate|apply goto_moves; exact C]|].
      destruct (name_start c); [|discriminate]. destruct (x_open s), (x_root s); try discriminate; apply goto_moves; exact C. }
    assert (IE : forall n, end_tag cut s n = Go s' -> moves s s' /\ calm s').
    { intros n. unfold end_tag. destruct (x_open s) as [|m o]; [discriminate|]. destruct (m =? n); [|discriminate]. intros [= <-]. apply emit_moves. }
    assert (IP : pi_tag cut s = Go s' -> moves s s' /\ calm s').
    { intros [= <-]. pose proof (emit_moves s [] (Text 0) (x_open s) (x_root s)) as E. rewrite app_nil_r in E. exact E. }
    destruct (x_mode s) eqn:M; [..|].
    all: repeat first
      [ discriminate
      | apply goto_moves; exact C
      | apply IT
      | apply IL
      | apply IE
      | apply IP
      | (intros [= <-]; apply emit_moves)
      | match goal with
        | |- (if ?b then _ else _) = _ -> _ => destruct b
        end ].
    - destruct (reference r); [apply add_moves; exact J|discriminate|discriminate].
    - unfold add_attr. destruct (dget a k); [discriminate|]. apply goto_moves; exact C.
    - destruct (reference r); [apply goto_moves; exact C|discriminate|discriminate].
    - unfold in_bang. destruct (Ascii.eqb c DASH); [apply goto_moves; exact C|]. destruct (x_open s); [destruct (_ && _); discriminate|]. destruct (Ascii.eqb c LB); [apply goto_moves; exact C|discriminate].
    - destruct rest; [discriminate|]. destruct (Ascii.eqb c a); [apply goto_moves; exact C|discriminate].
    - unfold in_cdata. destruct (Ascii.eqb c RB); [destruct (k <? 2)%nat; [apply goto_moves; exact C|apply add_moves; exact J]|]. destruct (_ && _); [apply goto_moves; exact C|apply add_moves; exact J].
    - unfold in_pi. destruct (if n =? "" then name_start c else name_char c); [apply goto_moves; exact C|]. destruct (_ || _); [discriminate|]. destruct (xspace c); [apply goto_moves; exact C|]. destruct (Ascii.eqb c QM); [apply goto_moves; exact C|discriminate].
  Qed.
  (** everything passed on later begins with the text pending now *)
  Lemma run_moves t : forall s s', calm s -> inside s -> run s t = Go s' -> calm s' /\ inside s' /\ exists q rest, flush s' = app (x_out s) (app (chars_of (x_out s) (x_pend s ++ q)) rest).
  Proof.
    induction t as [|c t IH]; intros s s' C J; cbn [Xml_model.run].
    - intros [= <-]. split; [exact C|]. split; [exact J|]. exists "", []. rewrite app_nil_s, app_nil_r. apply flush_eq.
    - destruct (step s c) as [s1| |] eqn:E; try discriminate. intros H. destruct (step_moves _ _ _ C J E) as [Mv C1]. destruct (IH _ _ C1 (step_inside _ _ _ J E) H) as (C' & J' & q & rest & F). split; [exact C'|]. split; [exact J'|].
      destruct Mv as [[O (q0 & P)]|(rest0 & O)].
      + exists (q0 ++ q), rest. rewrite F, O, P, app_assoc_s. reflexivity.
      + exists "", (app rest0 (app (chars_of (x_out s1) (x_pend s1 ++ q)) rest)). rewrite F, O, app_nil_s, <- !app_assoc. reflexivity.
  Qed.
  Lemma calm_init : calm x_init. Proof. left. reflexivity. Qed.
  Lemma inside_init : inside x_init. Proof. exact I. Qed.

  (** ** both *)
  Context (tf : option string -> res Q) (tm : option string -> res Z) (so : list (option string) -> list (option string)) (ia iq : bool).
  Notation hrun := (handle_all tf tm so ia iq).
  Hypothesis cut_join : forall o s, join (cut o s) = s.
  (** what the reader has passed on, at the end of the text *)
  Definition passed (r : reading) : option (list sax) := match r with Whole es | Short es => Some es | _ => None end.
  Lemma whole_flush s : calm s -> passed (finish cut (Go s)) = None \/ passed (finish cut (Go s)) = Some (flush s).
  Proof.
    intros C. cbn [finish]. destruct (x_mode s) eqn:M; cbn [passed]; auto; right.
    - destruct (x_open s) eqn:O, (x_root s); cbn [passed]; try reflexivity. destruct C as [C|C]; [|contradiction]. unfold Xml_model.flush. rewrite C. reflexivity.
    - destruct (x_open s) eqn:O, (x_root s); cbn [passed]; try reflexivity. destruct C as [C|C]; [|contradiction]. unfold Xml_model.flush. rewrite C. reflexivity.
  Qed.
  (** the callbacks made for the beginning of a text that can be handled *)
  Lemma prefix_handled t u es h : passed (reading_of cut (t ++ u)) = Some es -> hrun (h_init []) es = Ok h -> exists s, run x_init (norm false t) = Go s /\ calm s /\
    (exists h1, hrun (h_init []) (x_out s) = Ok h1 /\ exists l, h_cat h = app (h_cat h1) l) /\
    (exists h2, hrun (h_init []) (flush s) = Ok h2 /\ exists l, h_cat h = app (h_cat h2) l).
  Proof.
    unfold reading_of. destruct (norm_split t false) as (f' & Nm). rewrite Nm, run_app_s. intros P H. destruct (run x_init (norm false t)) as [s| |] eqn:E; try discriminate. exists s. split; [reflexivity|].
    destruct (run_moves _ _ _ calm_init inside_init E) as [C [J _]]. split; [exact C|].
    destruct (run s (norm f' u)) as [s'| |] eqn:E'; try discriminate. destruct (run_moves _ _ _ C J E') as (C' & _ & q & rest & F).
    destruct (whole_flush s' C') as [N|N]; [congruence|]. assert (es = flush s') by congruence. subst es. rewrite F in H.
    rewrite run_app in H. destruct (hrun (h_init []) (x_out s)) as [h1|] eqn:H1; cbn [rbind] in H; [|discriminate]. rewrite run_app in H. destruct (hrun h1 (chars_of (x_out s) (x_pend s ++ q))) as [h3|] eqn:H3; cbn [rbind] in H; [|discriminate].
    pose proof (hrun_chars_cat _ _ _ _ _ _ _ _ H3) as K3. destruct (hrun_cat _ _ _ _ _ _ _ _ H) as (l & L). rewrite K3 in L.
    split; [exists h1; split; [reflexivity|exists l; exact L]|].
    destruct (chars_begin tf tm so ia iq (flushed cut (x_out s) (x_pend s)) (flushed cut (x_out s) (x_pend s ++ q)) q h1 h3) as (h2 & H2 & K2); [rewrite !flushed_join by exact cut_join; reflexivity|exact H3|].
    exists h2. split; [rewrite flush_eq, run_app, H1; cbn [rbind]; exact H2|]. exists l. rewrite K2. exact L.
  Qed.
End Reader.
