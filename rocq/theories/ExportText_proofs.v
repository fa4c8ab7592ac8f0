(** * The text of an exported document *)
From Coq Require Import List Bool String Ascii Arith Lia ZArith QArith.
From Verif Require Import Base Dict Utils_model QuakeML_model Spec_QuakeML QuakeML_proofs Props_QuakeML Spec_Export Export_model Export_proofs Props_Export Props_Export2 Spec_Xml Xml_model Xml_proofs Recut_proofs Props_Xml ExportText_model.
Import ListNotations.
Open Scope string_scope.

(** ** texts *)
Lemma occurs_trans a b c : occurs a b -> occurs b c -> occurs a c.
Proof. intros (x & y & ->) (u & v & ->). exists (u ++ x), (y ++ v). rewrite !app_assoc_s. reflexivity. Qed.
Lemma all_app f a b : all f (a ++ b) = all f a && all f b.
Proof. induction a as [|c a IH]; [reflexivity|]. cbn [append all]. rewrite IH, andb_assoc. reflexivity. Qed.
Lemma all_sub f a b : occurs a b -> all f b = true -> all f a = true.
Proof. intros (x & y & ->). rewrite !all_app, !andb_true_iff. tauto. Qed.
Lemma all_impl (f g : ascii -> bool) s : (forall c, f c = true -> g c = true) -> all f s = true -> all g s = true.
Proof. intros H. induction s as [|c s IH]; [reflexivity|]. cbn [all]. rewrite !andb_true_iff. intros [H1 H2]. auto. Qed.
Lemma writable_sub a b : occurs a b -> writable b -> writable a.
Proof. intros H [H1 H2]. split; [unfold safe_id in *; eapply all_sub; eassumption|]. intros K. apply H2. eapply occurs_trans; eassumption. Qed.
Lemma writable_text s : writable s -> safe_text s.
Proof. intros [H1 H2]. split; [|exact H2]. eapply all_impl; [|exact H1]. intros c H. unfold id_char in H. rewrite !andb_true_iff in H. tauto. Qed.
Lemma no_marker s : contains "]]>" s = false -> ~ occurs "]]>" s.
Proof. intros H K. apply contains_occurs in K. congruence. Qed.
Lemma split_occurs c s : forall acc x, In x (split_from c acc s) -> occurs x (acc ++ s).
Proof.
  induction s as [|d s IH]; intros acc x; cbn [split_from].
  - intros [<-|[]]. exists "", "". reflexivity.
  - destruct (Ascii.eqb d c).
    + intros [<-|H]; [exists "", (String d s); reflexivity|]. apply IH in H. apply occurs_suffix, (occurs_suffix _ (String d "") s). exact H.
    + intros H. apply IH in H. rewrite app_assoc_s in H. exact H.
Qed.
Lemma second_part_occurs c : occurs (second_part c) c.
Proof.
  unfold second_part. destruct (nth_in_or_default 1 (split "_" c) "") as [H| ->]; [|exists c, ""; rewrite app_nil_s; reflexivity]. apply (split_occurs "_" c "" _ H).
Qed.
Definition cells_writable (get : string -> option val) : Prop := forall c s, get c = Some (Val s) -> writable s.
Lemma writable_lit s : all id_char s && negb (contains "]]>" s) = true -> writable s.
Proof. rewrite andb_true_iff, negb_true_iff. intros [H1 H2]. split; [exact H1|apply no_marker; exact H2]. Qed.
Lemma text_of_writable v : (forall s, v = Some (Val s) -> writable s) -> writable (text_of v).
Proof. intros H. destruct v as [[| |s]|]; cbn; [apply writable_lit; reflexivity|apply writable_lit; reflexivity|auto|apply writable_lit; reflexivity]. Qed.
Lemma ws_safe s : all text_char s && negb (contains "]]>" s) = true -> safe (ws s).
Proof. rewrite andb_true_iff, negb_true_iff. intros [H1 H2]. cbn [safe ws]. change (join [s]) with (s ++ ""). rewrite app_nil_s. split; [exact H1|apply no_marker; exact H2]. Qed.
Lemma leaf_safe t s : is_name t = true -> writable s -> safe (leaf t s).
Proof.
  intros Ht Hs. cbn [safe leaf fold_right]. split; [exact Ht|]. split; [split; constructor|]. split; [cbn; auto|]. split; [|exact I]. change (join [s]) with (s ++ ""). rewrite app_nil_s. apply writable_text. exact Hs.
Qed.
Definition all_safe (l : list plain) : Prop := fold_right (fun c r => safe c /\ r) True l.
Lemma all_safe_app a b : all_safe a -> all_safe b -> all_safe (app a b).
Proof. intros H K. induction a as [|x a IH]; [exact K|]. destruct H as [H1 H2]. split; [exact H1|apply IH; exact H2]. Qed.
Definition no_text (l : list plain) : Prop := Forall (fun p => is_text p = false) l.
Lemma apart_no_text l : no_text l -> apart l.
Proof. induction 1 as [|x l Hx HF IH]; [exact I|]. cbn. split; [congruence|exact IH]. Qed.
Lemma apart_ws s l : no_text l -> apart (ws s :: l).
Proof. intros H. cbn. split; [destruct H; auto|apply apart_no_text; exact H]. Qed.
Lemma opt_leaf_safe t v : is_name t = true -> (forall s, v = Some (Val s) -> writable s) -> all_safe (opt_leaf t v).
Proof. intros Ht H. destruct v as [[| |s]|]; cbn [opt_leaf all_safe fold_right]; try exact I; (split; [apply leaf_safe; [exact Ht|]|exact I]); [apply writable_lit; reflexivity|auto]. Qed.
Lemma opt_leaf_elem t v : no_text (opt_leaf t v).
Proof. destruct v as [[| |s]|]; repeat constructor. Qed.
Lemma elem_safe t a ch : is_name t = true -> safe_attrs a -> apart ch -> all_safe ch -> safe (PElem t a ch).
Proof. intros. cbn [safe]. auto. Qed.
Lemma no_attrs : safe_attrs []. Proof. split; constructor. Qed.
Lemma one_attr k v : is_name k = true -> writable v -> safe_attrs [(k, v)].
Proof. intros Hk [Hv _]. split; [constructor; [intros []|constructor]|]. constructor; [split; [exact Hk|exact Hv]|constructor]. Qed.

Section Layout.
  Variable int_text : string -> string.
  Variables agencyID author : string.
  Hypothesis Hag : writable agencyID.
  Hypothesis Hau : writable author.
  Hypothesis Hint : forall s, writable (int_text s).
  Ltac ws_ok := apply ws_safe; reflexivity.
  Lemma creation_safe k : (k = 12 \/ k = 16)%nat -> safe (creation_lines agencyID author k).
  Proof.
    intros Hk. apply elem_safe; [reflexivity|apply no_attrs| |].
    - cbn. repeat split; auto; discriminate.
    - destruct Hk as [-> | ->]; (split; [ws_ok|]; split; [apply leaf_safe; [reflexivity|exact Hag]|]; split; [ws_ok|]; split; [apply leaf_safe; [reflexivity|exact Hau]|]; split; [ws_ok|exact I]).
  Qed.
  Lemma real_safe tag get c : is_name tag = true -> cells_writable get -> safe (real_lines tag get c).
  Proof.
    intros Ht H. apply elem_safe; [exact Ht|apply no_attrs| |].
    - apply apart_ws. unfold real_value. apply Forall_app. split; apply opt_leaf_elem.
    - split; [ws_ok|]. unfold real_value. apply all_safe_app; apply opt_leaf_safe; try reflexivity; intros s; apply H.
  Qed.
  Lemma magnitude_safe id get type oid : cells_writable get -> (forall s, id = Some (Val s) -> writable s) -> writable type -> (forall s, oid = Some (Val s) -> writable s) ->
    safe (plain_of_child (magnitude_lines agencyID author id get type oid)).
  Proof.
    intros Hg Hid Ht Ho. cbn [plain_of_child magnitude_lines]. apply elem_safe; [reflexivity|apply one_attr; [reflexivity|apply text_of_writable; exact Hid]|cbn; repeat split; auto; discriminate|].
    split; [ws_ok|]. split; [apply creation_safe; auto|]. split; [ws_ok|]. split; [apply real_safe; [reflexivity|exact Hg]|]. split; [ws_ok|]. split; [apply leaf_safe; [reflexivity|exact Ht]|]. split; [ws_ok|]. split; [apply leaf_safe; [reflexivity|apply text_of_writable; exact Ho]|]. split; [ws_ok|exact I].
  Qed.
  Lemma quality_safe get : cells_writable get -> forall l, forallb (fun tc => is_name (fst tc)) l = true -> all_safe (flat_map (fun tc => opt_leaf (fst tc) (int_of int_text (get (snd tc)))) l) /\ all_safe (flat_map (fun tc => opt_leaf (fst tc) (get (snd tc))) l).
  Proof.
    intros Hg. induction l as [|[t c] l IH]; intros H; [split; exact I|]. cbn [forallb fst] in H. apply andb_true_iff in H. destruct H as [H1 H2]. destruct (IH H2) as [I1 I2]. cbn [flat_map fst snd]. split; apply all_safe_app; try assumption; apply opt_leaf_safe; try exact H1.
    - intros s. destruct (get c) as [[| |x]|]; cbn [int_of]; intros [= <-]; [apply writable_lit; reflexivity|apply Hint].
    - intros s. apply Hg.
  Qed.
  Lemma quality_elem {A} (f : A -> list plain) l : (forall x, no_text (f x)) -> no_text (flat_map f l).
  Proof. intros H. induction l as [|x l IH]; [constructor|]. cbn [flat_map]. apply Forall_app. split; [apply H|exact IH]. Qed.
  Lemma origin_safe id get : cells_writable get -> (forall s, id = Some (Val s) -> writable s) -> safe (plain_of_child (origin_lines int_text agencyID author id get)).
  Proof.
    intros Hg Hid. cbn [plain_of_child origin_lines]. apply elem_safe; [reflexivity|apply one_attr; [reflexivity|apply text_of_writable; exact Hid]|cbn; repeat split; auto; discriminate|].
    split; [ws_ok|]. split.
    { apply elem_safe; [reflexivity|apply no_attrs|cbn; repeat split; auto; discriminate|]. split; [ws_ok|]. split; [apply leaf_safe; [reflexivity|apply text_of_writable; intros s; apply Hg]|]. split; [ws_ok|exact I]. }
    split; [ws_ok|]. split; [apply real_safe; [reflexivity|exact Hg]|]. split; [ws_ok|]. split; [apply real_safe; [reflexivity|exact Hg]|]. split; [ws_ok|]. split; [apply leaf_safe; [reflexivity|apply text_of_writable; intros s; apply Hg]|].
    split; [ws_ok|]. split; [apply creation_safe; auto|]. split; [ws_ok|]. split; [apply real_safe; [reflexivity|exact Hg]|]. split; [ws_ok|]. split.
    { apply elem_safe; [reflexivity|apply no_attrs| |].
      - apply apart_ws. apply Forall_app. split; apply quality_elem; intros [t c]; apply opt_leaf_elem.
      - split; [ws_ok|]. apply all_safe_app; [apply (quality_safe get Hg int_counts); reflexivity|apply (quality_safe get Hg measures); reflexivity]. }
    split; [ws_ok|exact I].
  Qed.
  (** the loop over the secondary magnitudes, and what follows *)
  Definition gap_ok (gap : string) : Prop := gap = nl 12 \/ gap = newline ++ nl 12.
  Lemma secondary_safe l rest : Forall (fun c => is_text (plain_of_child c) = false /\ safe (plain_of_child c)) l -> match rest with c :: _ => is_text (plain_of_child c) = false | [] => True end ->
    all_safe (map plain_of_child rest) -> apart (map plain_of_child rest) -> forall gap, gap_ok gap ->
    all_safe (map plain_of_child (app (secondary_lines gap l) rest)) /\ apart (map plain_of_child (app (secondary_lines gap l) rest)).
  Proof.
    intros Hl Hr Hs Ha. induction Hl as [|c l [Hc1 Hc2] HF IH]; intros gap Hg; cbn [secondary_lines app map].
    - split.
      + split; [|exact Hs]. destruct Hg as [-> | ->]; ws_ok.
      + cbn [plain_of_child apart ws is_text]. split; [|exact Ha]. intros _. destruct rest as [|r rest]; [exact I|exact Hr].
    - destruct (IH (nl 12)) as [I1 I2]; [left; reflexivity|]. split.
      + split; [destruct Hg as [-> | ->]; ws_ok|]. split; [exact Hc2|exact I1].
      + cbn [plain_of_child apart ws is_text]. split; [intros _; exact Hc1|]. split; [|exact I2]. congruence.
  Qed.
  Variable columns : list string.
  Hypothesis Hcols : forall c, In c columns -> writable c.
  Section Row.
    Variable fresh : string -> string.
    Variable row : dict val.
    Hypothesis Hfresh : forall c, writable (fresh c).
    Hypothesis Hrow : cells_writable (dget row).
    Let get c := if mem c (secondary_keys columns) then None else dget row c.
    Lemma get_writable : cells_writable get.
    Proof. intros c s. unfold get. destruct (mem _ _); [discriminate|apply Hrow]. Qed.
    Lemma id_writable c s : id_of_row columns fresh row c = Some (Val s) -> writable s.
    Proof. unfold id_of_row. destruct (mem c columns); [apply Hrow|]. intros [= <-]. apply Hfresh. Qed.
    Definition sec_ok (acc : sec_mags) : Prop := forall ty d, In (ty, d) acc -> writable ty /\ cells_writable (dget d).
    Lemma dset_In {V} (d : dict V) k v k' v' : In (k', v') (dset d k v) -> (k' = k /\ v' = v) \/ In (k', v') d.
    Proof. induction d as [|[a b] d IH]; cbn; [intros [[= <- <-]|[]]; auto|]. destruct (String.eqb_spec k a) as [->|N]; cbn; [intros [[= <- <-]|H]; auto|intros [H|H]; [auto|destruct (IH H) as [H'|H']; auto]]. Qed.
    Lemma add_sec_ok acc c : In c columns -> sec_ok acc -> sec_ok (add_sec (dget row "magnitude_type") row acc c).
    Proof.
      intros Hc H. unfold add_sec. destruct (dget row c) as [[| |s]|] eqn:D; try exact H. destruct (dget row "magnitude_type") as [[| |t]|]; try exact H. destruct (contains t c); [exact H|].
      intros ty d Hin. apply dset_In in Hin. destruct Hin as [[-> ->]|Hin]; [|apply H; exact Hin]. split; [eapply writable_sub; [apply second_part_occurs|apply Hcols; exact Hc]|].
      intros k x. rewrite dget_dset. destruct (k =? _); [intros [= <-]; eapply Hrow; exact D|]. destruct (dget acc (second_part c)) as [d0|] eqn:E; [|discriminate]. apply (H (second_part c) d0).
      clear -E. induction acc as [|[a b] acc IH]; [discriminate|]. cbn in E. destruct (String.eqb_spec (second_part c) a) as [->|]; [injection E as ->; left; reflexivity|right; auto].
    Qed.
    Lemma secondary_ok : sec_ok (secondary_of columns row).
    Proof.
      unfold secondary_of. assert (K : forall l acc, incl l columns -> sec_ok acc -> sec_ok (fold_left (add_sec (dget row "magnitude_type") row) l acc)).
      { induction l as [|c l IH]; intros acc Hl H; [exact H|]. cbn [fold_left]. apply IH; [intros x Hx; apply Hl; right; exact Hx|]. apply add_sec_ok; [apply Hl; left; reflexivity|exact H]. }
      apply K; [intros c Hc; unfold secondary_keys in Hc; apply filter_In in Hc; tauto|intros ty d []].
    Qed.
    Lemma event_safe : safe (PElem "event" (ev_attrs (event_lines int_text agencyID author columns fresh row)) (map plain_of_child (ev_children (event_lines int_text agencyID author columns fresh row)))).
    Proof.
      cbn [event_lines ev_attrs ev_children]. fold get.
      set (oid := id_of_row columns fresh row "originID"). set (mid := id_of_row columns fresh row "magnitudeID").
      set (rest := [origin_lines int_text agencyID author oid get; Plain (ws (newline ++ nl 12)); Plain (leaf "preferredOriginID" (text_of oid)); Plain (ws (nl 12)); Plain (leaf "preferredMagnitudeID" (text_of mid)); Plain (ws (nl 12)); Plain (leaf "type" (text_of (get "event_type"))); Plain (ws (newline ++ nl 8))]).
      assert (Hr : all_safe (map plain_of_child rest)).
      { cbn [rest map]. split; [apply origin_safe; [apply get_writable|apply id_writable]|]. split; [ws_ok|]. split; [apply leaf_safe; [reflexivity|apply text_of_writable, id_writable]|]. split; [ws_ok|]. split; [apply leaf_safe; [reflexivity|apply text_of_writable, id_writable]|]. split; [ws_ok|].
        split; [apply leaf_safe; [reflexivity|apply text_of_writable; intros s; apply get_writable]|]. split; [ws_ok|exact I]. }
      assert (Ha : apart (map plain_of_child rest)) by (cbn; repeat split; auto; discriminate).
      destruct (secondary_safe (map (fun tm => magnitude_lines agencyID author (dget (snd tm) "magnitude_magnitudeID") (dget (snd tm)) (fst tm) oid) (secondary_of columns row)) rest) with (gap := newline ++ nl 12) as [S1 S2]; [|reflexivity|exact Hr|exact Ha|right; reflexivity|].
      { apply Forall_forall. intros c Hc. apply in_map_iff in Hc. destruct Hc as ([ty d] & <- & Hin). destruct (secondary_ok ty d Hin) as [W1 W2]. split; [reflexivity|]. apply magnitude_safe; [exact W2|intros s; apply W2|exact W1|apply id_writable]. }
      apply elem_safe; [reflexivity|apply one_attr; [reflexivity|apply text_of_writable, id_writable]| |].
      - rewrite map_app. cbn [map app plain_of_child apart]. split; [reflexivity|]. split; [discriminate|]. split; [reflexivity|]. split; [|exact S2].
        intros K. discriminate K.
      - rewrite map_app. cbn [map app plain_of_child]. split; [ws_ok|]. split; [apply creation_safe; auto|]. split; [ws_ok|]. split; [|exact S1]. apply magnitude_safe; [apply get_writable|apply id_writable|apply text_of_writable; intros s; apply get_writable|apply id_writable].
    Qed.
  End Row.

  (** ** the records *)
  Fixpoint single (p : plain) : bool := match p with PText [_] => true | PText _ => false | PElem _ _ ch => forallb single ch end.
  Lemma merge_single p : single p = true -> merge_plain p = p.
  Proof.
    induction p as [ps|t a ch IH] using plain_ind'; intros H.
    - destruct ps as [|s [|? ?]]; try discriminate. cbn [merge_plain]. unfold whole. change (join [s]) with (s ++ ""). rewrite app_nil_s. reflexivity.
    - cbn [merge_plain]. f_equal. cbn [single] in H. induction ch as [|c ch IHc]; [reflexivity|]. inversion_clear IH as [|? ? F1 F2]. cbn [forallb] in H. apply andb_true_iff in H. destruct H. cbn [map]. rewrite F1, IHc by assumption. reflexivity.
  Qed.
  Lemma merge_singles l : forallb single l = true -> map merge_plain l = l.
  Proof. induction l as [|p l IH]; [reflexivity|]. cbn [forallb map]. rewrite andb_true_iff. intros [H1 H2]. rewrite merge_single, IH by assumption. reflexivity. Qed.
  Lemma opt_single t v : forallb single (opt_leaf t v) = true.
  Proof. destruct v as [[| |s]|]; reflexivity. Qed.
  Lemma singles_flat {A} (f : A -> list plain) l : (forall x, forallb single (f x) = true) -> forallb single (flat_map f l) = true.
  Proof. intros H. induction l as [|x l IH]; [reflexivity|]. cbn [flat_map]. rewrite forallb_app, H, IH. reflexivity. Qed.
  Lemma ws_texts k s : strip s = "" -> texts strip k (ws s) = [].
  Proof. intros H. cbn [ws texts visible flat_map]. rewrite H. reflexivity. Qed.
  Lemma creation_texts k n : (n = 12 \/ n = 16)%nat -> texts strip k (merge_plain (creation_lines agencyID author n)) = texts strip k (creation_info agencyID author).
  Proof. intros Hn. rewrite merge_single by reflexivity. destruct Hn as [-> | ->]; cbn [creation_lines creation_info texts flat_map]; rewrite !ws_texts by reflexivity; reflexivity. Qed.
  Lemma real_texts k tag get c : texts strip k (merge_plain (real_lines tag get c)) = texts strip k (PElem tag [] (real_value get c)).
  Proof.
    rewrite merge_single; [|cbn [real_lines single forallb ws]; unfold real_value; rewrite forallb_app, !opt_single; reflexivity]. cbn [real_lines texts flat_map]. rewrite ws_texts by reflexivity. reflexivity.
  Qed.
  Lemma magnitude_fields_eq id get type oid : exists a ch, merge_child (magnitude_lines agencyID author id get type oid) = Magnitude a ch /\
    node_fields strip "magnitude" a ch = match magnitude_node agencyID author id get type oid with Magnitude a' ch' => node_fields strip "magnitude" a' ch' | _ => [] end.
  Proof.
    eexists _, _. split; [reflexivity|]. cbn [magnitude_node]. unfold node_fields. f_equal. cbn [map]. rewrite (merge_single (ws _)) by reflexivity. rewrite (merge_single (ws _)) by reflexivity.
    rewrite !(merge_single (leaf _ _)) by reflexivity. cbn [flat_map]. rewrite creation_texts by auto. rewrite real_texts, !ws_texts by reflexivity. cbn [app]. reflexivity.
  Qed.
  Lemma origin_fields_eq id get : exists a ch, merge_child (origin_lines int_text agencyID author id get) = Origin a ch /\
    node_fields strip "origin" a ch = match origin_node int_text agencyID author id get with Origin a' ch' => node_fields strip "origin" a' ch' | _ => [] end.
  Proof.
    eexists _, _. split; [reflexivity|]. cbn [origin_node]. unfold node_fields. f_equal. cbn [map]. rewrite (merge_single (ws _)) by reflexivity. rewrite (merge_single (ws (nl 12))) by reflexivity.
    rewrite !(merge_single (leaf _ _)) by reflexivity. rewrite (merge_single (PElem "time" _ _)) by reflexivity.
    rewrite (merge_single (PElem "quality" _ _)).
    - cbn [flat_map]. rewrite creation_texts by auto. rewrite !real_texts, !ws_texts by reflexivity. cbn [app].
      assert (E1 : forall k, texts strip k (PElem "time" [] [ws (nl 20); leaf "value" (text_of (get "time")); ws (nl 16)]) = texts strip k (PElem "time" [] [leaf "value" (text_of (get "time"))])).
      { intros k. cbn [texts flat_map]. rewrite !ws_texts by reflexivity. reflexivity. }
      assert (E2 : forall k l, texts strip k (PElem "quality" [] (ws (nl 20) :: l)) = texts strip k (PElem "quality" [] l)).
      { intros k l. cbn [texts flat_map]. rewrite ws_texts by reflexivity. reflexivity. }
      rewrite E1, E2. reflexivity.
    - cbn [single forallb ws]. rewrite forallb_app, !singles_flat; [reflexivity|intros [t c]; apply opt_single|intros [t c]; apply opt_single].
  Qed.
  (** white space adds nothing *)
  Definition plain_part (c : child) : list (string * string) := match c with Plain p => texts strip "" p | _ => [] end.
  Definition origin_part (c : child) : list (list (string * string)) := match c with Origin a ch => [node_fields strip "origin" a ch] | _ => [] end.
  Definition magnitude_part (c : child) : list (list (string * string)) := match c with Magnitude a ch => [node_fields strip "magnitude" a ch] | _ => [] end.
  Definition same_parts (l l' : list child) : Prop := flat_map plain_part l = flat_map plain_part l' /\ flat_map origin_part l = flat_map origin_part l' /\ flat_map magnitude_part l = flat_map magnitude_part l'.
  Lemma same_app a a' b b' : same_parts a a' -> same_parts b b' -> same_parts (app a b) (app a' b').
  Proof. intros (A1 & A2 & A3) (B1 & B2 & B3). unfold same_parts. rewrite !flat_map_app, A1, A2, A3, B1, B2, B3. auto. Qed.
  Lemma same_cons c c' l l' : same_parts [c] [c'] -> same_parts l l' -> same_parts (c :: l) (c' :: l').
  Proof. intros H K. apply (same_app [c] [c'] l l' H K). Qed.
  Lemma same_ws s l l' : strip s = "" -> same_parts l l' -> same_parts (merge_child (Plain (ws s)) :: l) l'.
  Proof.
    intros Hs (H1 & H2 & H3). unfold same_parts. cbn [flat_map merge_child plain_part origin_part magnitude_part app]. rewrite merge_single, ws_texts by (exact Hs || reflexivity). auto.
  Qed.
  Lemma same_refl l : same_parts l l. Proof. unfold same_parts. auto. Qed.
  Lemma same_magnitude id get type oid : same_parts [merge_child (magnitude_lines agencyID author id get type oid)] [magnitude_node agencyID author id get type oid].
  Proof. destruct (magnitude_fields_eq id get type oid) as (a & ch & -> & E). unfold same_parts. cbn [flat_map plain_part origin_part magnitude_part app]. rewrite E. auto. Qed.
  Lemma same_origin id get : same_parts [merge_child (origin_lines int_text agencyID author id get)] [origin_node int_text agencyID author id get].
  Proof. destruct (origin_fields_eq id get) as (a & ch & -> & E). unfold same_parts. cbn [flat_map plain_part origin_part magnitude_part app]. rewrite E. auto. Qed.
  Lemma same_plain p p' : texts strip "" (merge_plain p) = texts strip "" p' -> same_parts [merge_child (Plain p)] [Plain p'].
  Proof. intros E. unfold same_parts. cbn [flat_map merge_child plain_part origin_part magnitude_part app]. rewrite E. auto. Qed.
  Lemma same_secondary {A} (f g : A -> child) l rest rest' : (forall x, same_parts [merge_child (f x)] [g x]) -> same_parts (map merge_child rest) rest' -> forall gap, gap_ok gap ->
    same_parts (map merge_child (app (secondary_lines gap (map f l)) rest)) (app (map g l) rest').
  Proof.
    intros H Hr. induction l as [|x l IH]; intros gap Hg; cbn [map secondary_lines app].
    - apply same_ws; [destruct Hg as [-> | ->]; reflexivity|exact Hr].
    - apply same_ws; [destruct Hg as [-> | ->]; reflexivity|]. apply same_cons; [apply H|]. apply IH. left. reflexivity.
  Qed.
  Lemma record_lines tf tm so ia iq fresh row :
    record tf tm so ia iq (merge_event (event_lines int_text agencyID author columns fresh row)) = record tf tm so ia iq (export_event int_text agencyID author columns fresh row).
  Proof.
    assert (S : same_parts (ev_children (merge_event (event_lines int_text agencyID author columns fresh row))) (ev_children (export_event int_text agencyID author columns fresh row))).
    { cbn [merge_event event_lines export_event ev_children]. rewrite map_app. cbn [map app]. apply same_ws; [reflexivity|]. apply same_cons; [apply same_plain, creation_texts; auto|]. apply same_ws; [reflexivity|]. apply same_cons; [apply same_magnitude|].
      apply same_secondary; [intros x; apply same_magnitude| |right; reflexivity]. cbn [map]. apply same_cons; [apply same_origin|]. apply same_ws; [reflexivity|]. apply same_cons; [apply same_plain; rewrite merge_single by reflexivity; reflexivity|].
      apply same_ws; [reflexivity|]. apply same_cons; [apply same_plain; rewrite merge_single by reflexivity; reflexivity|]. apply same_ws; [reflexivity|]. apply same_cons; [apply same_plain; rewrite merge_single by reflexivity; reflexivity|]. apply same_ws; [reflexivity|]. apply same_refl. }
    destruct S as (S1 & S2 & S3). unfold record, event_fields, origin_fields, magnitude_fields. fold plain_part origin_part magnitude_part.
    change (fun c => match c with Plain p => texts strip "" p | _ => [] end) with plain_part. change (fun c => match c with Origin a ch => [node_fields strip "origin" a ch] | _ => [] end) with origin_part.
    change (fun c => match c with Magnitude a ch => [node_fields strip "magnitude" a ch] | _ => [] end) with magnitude_part.
    rewrite S1, S2, S3. reflexivity.
  Qed.
End Layout.
