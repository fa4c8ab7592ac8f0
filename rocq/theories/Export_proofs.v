(** * Lemmas about the export to QuakeML *)
From Coq Require Import List Bool String Ascii Lia ZArith QArith Permutation.
From Verif Require Import Base Dict Utils_model QuakeML_model Spec_QuakeML QuakeML_proofs Props_QuakeML Props_QuakeML2 Props_QuakeML3 Spec_Export Export_model.
Import ListNotations.
Open Scope string_scope.

(** ** Strings *)
Lemma prefix_starts sub s : prefix sub s = true <-> starts sub s.
Proof.
  revert s. induction sub as [|c sub IH]; intros s; cbn [prefix].
  - destruct s; split; intros; try reflexivity; eexists; reflexivity.
  - destruct s as [|d s]; [split; [discriminate|intros (b & E); discriminate]|]. change (prefix (String c sub) (String d s)) with (if ascii_dec c d then prefix sub s else false). destruct (ascii_dec c d) as [->|N].
    + rewrite IH. split; intros (b & E); exists b; [cbn; congruence|cbn in E; congruence].
    + split; [discriminate|]. intros (b & E). cbn in E. congruence.
Qed.
Lemma contains_occurs sub s : contains sub s = true <-> occurs sub s.
Proof.
  induction s as [|c s IH]; cbn [contains]; rewrite orb_true_iff, prefix_starts.
  - split; [intros [(b & E)|E]; [exists "", b; exact E|discriminate]|]. intros (a & b & E). destruct a; [left; exists b; exact E|discriminate].
  - rewrite IH. split.
    + intros [(b & E)|(a & b & E)]; [exists "", b; exact E|exists (String c a), b; cbn; congruence].
    + intros (a & b & E). destruct a as [|d a]; [left; exists b; exact E|right; exists a, b; cbn in E; congruence].
Qed.
Lemma secondary_keys_ok columns c : In c (secondary_keys columns) <-> In c columns /\ secondary_column c.
Proof.
  unfold secondary_keys, secondary_column. rewrite filter_In, andb_true_iff, contains_occurs, negb_true_iff. change details with detail_columns.
  assert (existsb (fun v => contains v c) detail_columns = false <-> (forall d, In d detail_columns -> ~ occurs d c)); [|tauto].
  split.
  - intros H d Hd O. rewrite <- not_true_iff_false in H. apply H. apply existsb_exists. exists d. split; [exact Hd|apply contains_occurs; exact O].
  - intros H. apply not_true_iff_false. intros K. apply existsb_exists in K. destruct K as (d & Hd & O). apply (H d Hd). apply contains_occurs. exact O.
Qed.
Lemma split_from_no acc s : without_underscore s -> split_from "_" acc s = [acc ++ s].
Proof.
  revert acc. induction s as [|c s IH]; intros acc H; cbn [split_from]; [rewrite app_nil_s; reflexivity|]. destruct H as [H1 H2]. destruct (Ascii.eqb_spec c "_"%char) as [E|_]; [contradiction|].
  rewrite IH by exact H2. rewrite app_assoc_s. reflexivity.
Qed.
Lemma split_from_to acc s r : without_underscore s -> split_from "_" acc (s ++ String "_" r) = (acc ++ s) :: split_from "_" "" r.
Proof.
  revert acc. induction s as [|c s IH]; intros acc H; cbn [split_from append]; [rewrite app_nil_s; reflexivity|]. destruct H as [H1 H2]. destruct (Ascii.eqb_spec c "_"%char) as [E|_]; [contradiction|].
  rewrite IH by exact H2. rewrite app_assoc_s. reflexivity.
Qed.
Lemma second_part_ok T e : without_underscore T -> In e endings -> second_part ("magnitude_" ++ T ++ e) = T.
Proof.
  intros HT He. unfold second_part, Export_model.split. change ("magnitude_" ++ T ++ e) with ("magnitude" ++ String "_" (T ++ e)).
  rewrite split_from_to by (cbn; repeat split; discriminate). cbn [nth].
  assert (E : e = "" \/ exists r, e = String "_" r) by (cbn in He; repeat destruct He as [<-|He]; try (right; eexists; reflexivity); [left; reflexivity|destruct He]).
  destruct E as [->|(r & ->)]; [rewrite app_nil_s, split_from_no by exact HT; reflexivity|rewrite split_from_to by exact HT; reflexivity].
Qed.
Lemma remove_from_skip old a s : remove_from old (String.length a) (a ++ s) = remove_from old 0 s.
Proof. induction a as [|c a IH]; [reflexivity|exact IH]. Qed.
Lemma remove_none old s : ~ occurs old s -> remove_from old 0 s = s.
Proof.
  induction s as [|c s IH]; intros H; [reflexivity|]. cbn [remove_from]. destruct (prefix old (String c s)) eqn:P.
  - exfalso. apply H. apply prefix_starts in P. destruct P as (b & E). exists "", b. exact E.
  - rewrite IH; [reflexivity|]. intros (a & b & E). apply H. exists (String c a), b. cbn. rewrite E. reflexivity.
Qed.
(** what starts with _ can occur in an ending only at its start *)
Lemma occurs_ending T e : In e endings -> occurs ("_" ++ T) e -> starts ("_" ++ T) e.
Proof.
  intros He (a & b & E). destruct a as [|c a]; [exists b; exact E|]. exfalso.
  assert (K : forall w : string, e = w -> w = "" \/ exists r, w = String "_" r /\ without_underscore r).
  { intros w <-. cbn in He. repeat destruct He as [<-|He]; try (right; eexists; split; [reflexivity|cbn; repeat split; discriminate]); [left; reflexivity|destruct He]. }
  destruct (K e eq_refl) as [->|(r & -> & Hr)]; [discriminate|]. cbn in E. injection E as <- E. clear -E Hr. revert a E Hr. induction r as [|d r IH]; intros a E Hr; [destruct a; discriminate|]. destruct Hr as [H1 H2].
  destruct a as [|c a]; cbn in E; injection E as E0 E; [congruence|]. exact (IH a E H2).
Qed.
Lemma remove_ok T e : ordinary T -> In e endings -> remove ("_" ++ T) ("magnitude_" ++ T ++ e) = "magnitude" ++ e.
Proof.
  intros (H1 & H2 & _ & H3) He. unfold remove.
  assert (K : forall w s, without_underscore w -> remove_from ("_" ++ T) 0 (w ++ s) = w ++ remove_from ("_" ++ T) 0 s).
  { induction w as [|c w IH]; intros s Hw; [reflexivity|]. destruct Hw as [W1 W2]. cbn [append remove_from]. destruct (prefix (String "_" T) (String c (w ++ s))) eqn:P.
    - exfalso. apply prefix_starts in P. destruct P as (b & E). cbn in E. injection E as E _. congruence.
    - f_equal. apply IH. exact W2. }
  change ("magnitude_" ++ T ++ e) with ("magnitude" ++ (String "_" (T ++ e))). rewrite K by (cbn; repeat split; discriminate). f_equal.
  cbn [remove_from append]. assert (prefix (String "_" T) (String "_" (T ++ e)) = true) as ->; [apply prefix_starts; exists e; reflexivity|].
  cbn [String.length]. rewrite Nat.sub_succ, Nat.sub_0_r. rewrite remove_from_skip. apply remove_none. intros O. apply (H3 e He). apply occurs_ending; assumption.
Qed.
Lemma app_inv_l_s (a b c : string) : a ++ b = a ++ c -> b = c.
Proof. induction a; cbn; intros H; [exact H|]. injection H as H. auto. Qed.
Lemma without_underscore_b s : without_underscore s <-> no_underscore s = true.
Proof. induction s as [|c s IH]; cbn; [tauto|]. rewrite andb_true_iff, negb_true_iff, <- IH. destruct (Ascii.eqb_spec c "_"%char); intuition congruence. Qed.
Lemma ordinary_tidy T : ordinary T -> tidy T.
Proof. intros (_ & H & N & _). split; [apply without_underscore_b; exact H|exact N]. Qed.
Lemma column_inj T e T' e' : without_underscore T -> without_underscore T' -> In e endings -> In e' endings -> "magnitude_" ++ T ++ e = "magnitude_" ++ T' ++ e' -> T = T' /\ e = e'.
Proof. intros H H' I I' E. apply app_inv_l_s in E. apply (name_inj T T' e e'); try apply without_underscore_b; assumption. Qed.

(** ** The secondary magnitudes of an event *)
Definition lookup2 (a : sec_mags) (T k : string) : option val := match dget a T with Some d => dget d k | None => None end.
Definition put2 (a : sec_mags) (T k : string) (v : val) : sec_mags := dset a T (dset (match dget a T with Some d => d | None => [] end) k v).
Lemma lookup2_put2 a T k v T' k' : lookup2 (put2 a T k v) T' k' = if (T' =? T) && (k' =? k) then Some v else lookup2 a T' k'.
Proof.
  unfold lookup2, put2. rewrite dget_dset. destruct (String.eqb_spec T' T) as [->|N]; cbn [andb]; [|reflexivity]. rewrite dget_dset. destruct (k' =? k); [reflexivity|]. destruct (dget a T); reflexivity.
Qed.
Definition regular (columns : list string) : Prop := forall c, In c columns -> secondary_column c -> exists T e, (ordinary T /\ strip T = T) /\ In e endings /\ c = "magnitude_" ++ T ++ e.
(** the cell of a secondary column is exported *)
Definition kept (row : dict val) (c : string) : bool :=
  match dget row c, dget row "magnitude_type" with Some (Val _), Some (Val t) => negb (contains t c) | _, _ => false end.
Lemma add_sec_eq row acc c : (exists T e, ordinary T /\ In e endings /\ c = "magnitude_" ++ T ++ e) ->
  exists T e, ordinary T /\ In e endings /\ c = "magnitude_" ++ T ++ e /\
  add_sec (dget row "magnitude_type") row acc c = if kept row c then put2 acc T ("magnitude" ++ e) (match dget row c with Some v => v | None => VNone end) else acc.
Proof.
  intros (T & e & HT & He & ->). exists T, e. repeat (split; [assumption|]). split; [reflexivity|]. unfold add_sec, kept.
  destruct (dget row ("magnitude_" ++ T ++ e)) as [[| |s]|]; try reflexivity. destruct (dget row "magnitude_type") as [[| |t]|]; try reflexivity.
  destruct (contains t _); cbn [negb]; [reflexivity|]. rewrite second_part_ok by (try apply HT; assumption). rewrite remove_ok by assumption. reflexivity.
Qed.
Lemma sec_lookup row ks : forall acc, (forall c, In c ks -> exists T e, ordinary T /\ In e endings /\ c = "magnitude_" ++ T ++ e) ->
  forall T e, ordinary T -> In e endings ->
  lookup2 (fold_left (add_sec (dget row "magnitude_type") row) ks acc) T ("magnitude" ++ e) =
  if existsb (String.eqb ("magnitude_" ++ T ++ e)) ks && kept row ("magnitude_" ++ T ++ e) then dget row ("magnitude_" ++ T ++ e) else lookup2 acc T ("magnitude" ++ e).
Proof.
  induction ks as [|c ks IH]; intros acc Hks T e HT He; [reflexivity|]. cbn [fold_left existsb].
  rewrite (IH _ (fun d Hd => Hks d (or_intror Hd)) T e HT He). destruct (add_sec_eq row acc c (Hks c (or_introl eq_refl))) as (T' & e' & HT' & He' & Ec & Ea).
  rewrite Ea. destruct (String.eqb_spec ("magnitude_" ++ T ++ e) c) as [E|N].
  - rewrite Ec in E. destruct (column_inj T e T' e') as [-> ->]; try assumption; try apply HT; try apply HT'. rewrite <- Ec in *. cbn [orb andb].
    destruct (kept row c) eqn:K; [|rewrite andb_false_r; reflexivity]. rewrite andb_true_r. rewrite lookup2_put2, !String.eqb_refl. cbn [andb].
    unfold kept in K. destruct (dget row c) as [v|]; [|discriminate]. destruct (existsb _ _); reflexivity.
  - cbn [orb]. destruct (_ && _); [reflexivity|]. destruct (kept row c); [|reflexivity]. rewrite lookup2_put2.
    destruct (String.eqb_spec T T') as [->|]; [|reflexivity]. destruct (String.eqb_spec ("magnitude" ++ e) ("magnitude" ++ e')) as [E|]; [|reflexivity]. apply app_inv_l_s in E. subst e'. congruence.
Qed.
Lemma sec_types row ks : forall acc, (forall c, In c ks -> exists T e, ordinary T /\ In e endings /\ c = "magnitude_" ++ T ++ e) -> NoDup (map fst acc) ->
  NoDup (map fst (fold_left (add_sec (dget row "magnitude_type") row) ks acc)) /\
  forall T, In T (map fst (fold_left (add_sec (dget row "magnitude_type") row) ks acc)) <->
            In T (map fst acc) \/ (exists e, ordinary T /\ In e endings /\ In ("magnitude_" ++ T ++ e) ks /\ kept row ("magnitude_" ++ T ++ e) = true).
Proof.
  induction ks as [|c ks IH]; intros acc Hks ND; [split; [exact ND|]; intros T; split; [auto|intros [?|(e & _ & _ & [] & _)]; assumption]|].
  cbn [fold_left]. destruct (add_sec_eq row acc c (Hks c (or_introl eq_refl))) as (T' & e' & HT' & He' & Ec & Ea). rewrite Ea.
  assert (ND' : NoDup (map fst (if kept row c then put2 acc T' ("magnitude" ++ e') (match dget row c with Some v => v | None => VNone end) else acc))) by (destruct (kept row c); [apply dset_nodup|]; exact ND).
  destruct (IH _ (fun d Hd => Hks d (or_intror Hd)) ND') as [A B]. split; [exact A|]. intros T. rewrite B. clear A B IH ND'.
  destruct (kept row c) eqn:K.
  - unfold put2. rewrite dset_keys. split.
    + intros [[->|H]|(e & H1 & H2 & H3 & H4)]; [right; exists e'; rewrite <- Ec; exact (conj HT' (conj He' (conj (or_introl eq_refl) K)))|left; exact H|right; exists e; exact (conj H1 (conj H2 (conj (or_intror H3) H4)))].
    + intros [H|(e & H1 & H2 & [H3|H3] & H4)]; [left; right; exact H| |right; exists e; auto]. left. left. rewrite Ec in H3. destruct (column_inj T' e' T e) as [-> _]; try assumption; try apply HT'; try apply H1. reflexivity.
  - split.
    + intros [H|(e & H1 & H2 & H3 & H4)]; [left; exact H|right; exists e; exact (conj H1 (conj H2 (conj (or_intror H3) H4)))].
    + intros [H|(e & H1 & H2 & [H3|H3] & H4)]; [left; exact H|subst c; congruence|right; exists e; auto].
Qed.

(** ** The fields of the exported elements *)
Definition presentable (s : string) : Prop := s <> "" /\ strip s = s.
Lemma visible_nil p : visible strip p [""] = [].
Proof. reflexivity. Qed.
Lemma visible_one p s : presentable s -> visible strip p [s] = [(p, s)].
Proof. intros [H E]. cbn. rewrite E. destruct (String.eqb_spec s ""); [contradiction|reflexivity]. Qed.
Lemma presentable_const s : strip s = s -> s <> "" -> presentable s.
Proof. split; assumption. Qed.
Definition fine (v : option val) : Prop := forall s, v = Some (Val s) -> presentable s.
Definition pairs_shown (p : string) (v : option val) : list (string * string) := match shown v with Some s => [(p, s)] | None => [] end.
Definition pairs_written (p : string) (v : option val) : list (string * string) := match written v with Some s => [(p, s)] | None => [] end.
Lemma texts_opt path tag v : fine v -> flat_map (texts strip path) (opt_leaf tag v) = pairs_shown (path ++ tag) v.
Proof. intros H. destruct v as [[| |s]|]; try reflexivity. unfold opt_leaf, leaf, pairs_shown. cbn [flat_map texts shown]. rewrite !app_nil_r. apply visible_one. apply H. reflexivity. Qed.
Lemma texts_leaf path tag v : fine v -> texts strip path (leaf tag (text_of v)) = pairs_written (path ++ tag) v.
Proof. intros H. unfold leaf, pairs_written. destruct v as [[| |s]|]; try reflexivity. cbn [flat_map texts written text_of]. rewrite !app_nil_r. apply visible_one. apply H. reflexivity. Qed.
Lemma values_shown p v k : values (pairs_shown p v) k = if p =? k then match shown v with Some s => [s] | None => [] end else [].
Proof. unfold pairs_shown. destruct (shown v); cbn; destruct (p =? k); reflexivity. Qed.
Lemma values_written p v k : values (pairs_written p v) k = if p =? k then match written v with Some s => [s] | None => [] end else [].
Proof. unfold pairs_written. destruct (written v); cbn; destruct (p =? k); reflexivity. Qed.
Lemma values_visible p s k : (p =? k) = false -> values (visible strip p [s]) k = [].
Proof. intros H. cbn. destruct (strip s =? ""); cbn; rewrite ?H; reflexivity. Qed.
Lemma values_info path a b k : (path ++ "creationInfo" ++ "agencyID" =? k) = false -> (path ++ "creationInfo" ++ "author" =? k) = false -> values (texts strip path (creation_info a b)) k = [].
Proof.
  intros H1 H2. unfold creation_info, leaf. cbn [texts flat_map]. rewrite !app_nil_r, values_app, !values_visible; [reflexivity| |]; rewrite app_assoc_s; assumption.
Qed.
Lemma values_pair p s k : values [(p, s)] k = if p =? k then [s] else [].
Proof. unfold values. cbn [flat_map fst snd]. destruct (p =? k); reflexivity. Qed.
Lemma public_one n s : public n [("publicID", s)] = [(n ++ "publicID", s)].
Proof. reflexivity. Qed.
Lemma field_one l k s : values l k = [s] -> field l k = Some s.
Proof. intros H. unfold field. rewrite H. cbn. rewrite app_nil_s. reflexivity. Qed.
Lemma field_opt l k o : values l k = match o with Some s => [s] | None => [] end -> field l k = o.
Proof. destruct o; [apply field_one|]. intros H. unfold field. rewrite H. reflexivity. Qed.

Section Fields.
  Variables agencyID author : string.
  Definition mag_fields (id : option val) (get : string -> option val) (type : string) (oid : option val) : list (string * string) :=
    node_fields strip "magnitude" [("publicID", text_of id)]
      [creation_info agencyID author; PElem "mag" [] (real_value get "magnitude"); leaf "type" type; leaf "originID" (text_of oid)].
  Lemma mag_values id get type oid k : fine (get "magnitude") -> fine (get "magnitude_uncertainty") -> presentable type -> fine oid ->
    k <> "magnitudecreationInfoagencyID" -> k <> "magnitudecreationInfoauthor" ->
    values (mag_fields id get type oid) k =
    app (if "magnitudepublicID" =? k then [text_of id] else [])
     (app (if "magnitudemagvalue" =? k then match shown (get "magnitude") with Some s => [s] | None => [] end else [])
     (app (if "magnitudemaguncertainty" =? k then match shown (get "magnitude_uncertainty") with Some s => [s] | None => [] end else [])
     (app (if "magnitudetype" =? k then [type] else []) (if "magnitudeoriginID" =? k then match written oid with Some s => [s] | None => [] end else [])))).
  Proof.
    intros F1 F2 F3 F4 K1 K2. unfold mag_fields, node_fields. rewrite values_app. f_equal.
    - rewrite public_one. apply values_pair.
    - cbn [flat_map]. rewrite !values_app. rewrite values_info by (apply String.eqb_neq; cbn; congruence). cbn [app]. cbn [texts].
      unfold real_value. rewrite flat_map_app, !texts_opt by assumption. rewrite values_app, !values_shown. rewrite <- app_assoc. cbn [append]. f_equal. f_equal. f_equal.
      + unfold leaf. cbn [texts flat_map append]. rewrite app_nil_r, visible_one by exact F3. apply values_pair.
      + rewrite texts_leaf by exact F4. rewrite values_written. change (values [] k) with (@nil string). rewrite app_nil_r. reflexivity.
  Qed.
End Fields.
(** a list of fields given by a table *)
Definition olist (o : option string) : list string := match o with Some s => [s] | None => [] end.
Definition table := list (string * option string).
Definition tab (t : table) (k : string) : list string := flat_map (fun e => if fst e =? k then olist (snd e) else []) t.
Lemma tab_app (a b : table) k : tab (app a b) k = app (tab a k) (tab b k).
Proof. apply flat_map_app. Qed.
Lemma tab_get t k o : NoDup (map fst t) -> In (k, o) t -> tab t k = olist o.
Proof.
  induction t as [|[k' o'] t IH]; intros ND Hin; [destruct Hin|]. inversion_clear ND as [|? ? N1 N2]. unfold tab. cbn [flat_map fst snd]. fold (tab t k). destruct Hin as [E|Hin].
  - injection E as -> ->. rewrite String.eqb_refl. assert (tab t k = []) as ->; [|apply app_nil_r]. clear -N1. induction t as [|[k' o'] t IH]; [reflexivity|]. unfold tab. cbn [flat_map fst snd]. fold (tab t k). rewrite IH by (intros H; apply N1; right; exact H).
    destruct (String.eqb_spec k' k) as [->|]; [|reflexivity]. exfalso. apply N1. left. reflexivity.
  - destruct (String.eqb_spec k' k) as [->|]; [|apply IH; assumption]. exfalso. apply N1. apply (in_map fst) in Hin. exact Hin.
Qed.
Lemma tab_none t k : ~ In k (map fst t) -> tab t k = [].
Proof.
  induction t as [|[k' o'] t IH]; intros H; [reflexivity|]. unfold tab. cbn [flat_map fst snd]. fold (tab t k). rewrite IH by (intros K; apply H; right; exact K).
  destruct (String.eqb_spec k' k) as [->|]; [|reflexivity]. exfalso. apply H. left. reflexivity.
Qed.
Lemma values_written_tab p v k t : app (values (pairs_written p v) k) (tab t k) = tab ((p, written v) :: t) k.
Proof. rewrite values_written. reflexivity. Qed.
Lemma values_shown_tab p v k t : app (values (pairs_shown p v) k) (tab t k) = tab ((p, shown v) :: t) k.
Proof. rewrite values_shown. reflexivity. Qed.
Lemma values_pair_tab p s k t : app (values [(p, s)] k) (tab t k) = tab ((p, Some s) :: t) k.
Proof. rewrite values_pair. reflexivity. Qed.

Section Nodes.
  Variable int_text : string -> string.
  Variables agencyID author : string.
  Definition no_info (path k : string) : Prop := k <> (path ++ "creationInfo" ++ "agencyID") /\ k <> (path ++ "creationInfo" ++ "author").
  Lemma values_info' path k : no_info path k -> values (texts strip path (creation_info agencyID author)) k = [].
  Proof. intros [H1 H2]. apply values_info; apply String.eqb_neq; congruence. Qed.
  Lemma values_real path tag get c k : fine (get c) -> fine (get (c ++ "_uncertainty")) ->
    values (texts strip path (PElem tag [] (real_value get c))) k = tab [((path ++ tag) ++ "value", shown (get c)); ((path ++ tag) ++ "uncertainty", shown (get (c ++ "_uncertainty")))] k.
  Proof. intros F1 F2. cbn [texts]. unfold real_value. rewrite flat_map_app, !texts_opt by assumption. rewrite values_app. rewrite <- values_shown_tab, <- values_shown_tab. rewrite app_nil_r. reflexivity. Qed.
  Definition mag_table (id : option val) (get : string -> option val) (type : string) (oid : option val) : table :=
    [("magnitudepublicID", Some (text_of id)); ("magnitudemagvalue", shown (get "magnitude")); ("magnitudemaguncertainty", shown (get "magnitude_uncertainty")); ("magnitudetype", Some type); ("magnitudeoriginID", written oid)].
  Lemma mag_tab id get type oid k : fine (get "magnitude") -> fine (get "magnitude_uncertainty") -> presentable type -> fine oid -> no_info "magnitude" k ->
    values (mag_fields agencyID author id get type oid) k = tab (mag_table id get type oid) k.
  Proof. intros F1 F2 F3 F4 [K1 K2]. rewrite mag_values by assumption. unfold mag_table, tab. cbn [flat_map fst snd]. rewrite app_nil_r. reflexivity. Qed.
  Definition org_fields (id : option val) (get : string -> option val) : list (string * string) :=
    match origin_node int_text agencyID author id get with Origin a ch => node_fields strip "origin" a ch | _ => [] end.
  Definition quality_table (get : string -> option val) : table :=
    app (map (fun tc => ("originquality" ++ fst tc, shown (int_of int_text (get (snd tc))))) int_counts) (map (fun tc => ("originquality" ++ fst tc, shown (get (snd tc)))) measures).
  Definition org_table (id : option val) (get : string -> option val) : table :=
    app [("originpublicID", Some (text_of id)); ("origintimevalue", written (get "time"));
      ("originlongitudevalue", shown (get "longitude")); ("originlongitudeuncertainty", shown (get "longitude_uncertainty"));
      ("originlatitudevalue", shown (get "latitude")); ("originlatitudeuncertainty", shown (get "latitude_uncertainty"));
      ("originevaluationMode", written (get "evaluationmode"));
      ("origindepthvalue", shown (get "depth")); ("origindepthuncertainty", shown (get "depth_uncertainty"))] (quality_table get).
  Lemma org_tab id get k : (forall c, fine (get c)) -> (forall s, presentable (int_text s)) -> no_info "origin" k ->
    values (org_fields id get) k = tab (org_table id get) k.
  Proof.
    intros F Fi K. unfold org_fields, origin_node, node_fields. rewrite public_one. rewrite values_app. cbn [flat_map]. rewrite !values_app. rewrite !values_real by apply F. rewrite texts_leaf by apply F. rewrite values_info' by exact K.
    set (Q := texts strip "origin" (PElem "quality" [] _)).
    assert (EQ : values Q k = tab (quality_table get) k).
    { unfold Q, quality_table. cbn [texts]. rewrite flat_map_app, values_app, tab_app. f_equal.
      - induction int_counts as [|tc l IH]; [reflexivity|]. cbn [flat_map map]. rewrite flat_map_app, values_app, IH. rewrite texts_opt; [apply values_shown_tab|].
        intros s Hs. unfold int_of in Hs. destruct (get (snd tc)) as [[| |v]|]; try discriminate; injection Hs as <-; [split; [discriminate|reflexivity]|apply Fi].
      - induction measures as [|tc l IH]; [reflexivity|]. cbn [flat_map map]. rewrite flat_map_app, values_app, IH. rewrite texts_opt by apply F. apply values_shown_tab. }
    rewrite EQ. cbn [texts flat_map]. rewrite texts_leaf by apply F. rewrite app_nil_r. change (values [] k) with (@nil string). rewrite app_nil_r.
    unfold org_table. cbn [app]. rewrite <- values_pair_tab. rewrite <- values_written_tab. cbn [append]. f_equal. f_equal.
    rewrite <- !tab_app, values_written_tab, <- !tab_app. reflexivity.
  Qed.
End Nodes.
