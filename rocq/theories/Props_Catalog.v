(** * Catalog and ForecastCatalog: class and metadata along any history, columns dropped *)
From Coq Require Import ZArith List Bool String Ascii Lia.
From Verif Require Import Base Num StateM Dict Binning_model Utils_model Catalog_model Spec_Catalog.
Import ListNotations.
Open Scope string_scope.

Lemma mem_In c l : mem c l = true <-> In c l.
Proof.
  unfold mem. rewrite existsb_exists. split.
  - intros (x & Hx & He). apply String.eqb_eq in He. subst. exact Hx.
  - intros H. exists c. split; [exact H | apply String.eqb_refl].
Qed.
Lemma mem_not c l : mem c l = false <-> ~ In c l.
Proof. rewrite <- mem_In. destruct (mem c l); split; congruence. Qed.

Lemma constructor_fits cols k : constructor_class cols = k <-> fits cols k.
Proof.
  unfold constructor_class, check_required_cols. cbn [forallb]. rewrite !andb_true_r.
  destruct (mem "magnitude" cols) eqn:Hm; [apply mem_In in Hm | apply mem_not in Hm]; cbn [negb];
    (destruct (mem "catalog_id" cols) eqn:Hc; [apply mem_In in Hc | apply mem_not in Hc]); cbn [negb];
    destruct k; cbn [fits]; (split; [intros H; try discriminate H; tauto | intros H; try reflexivity; exfalso; tauto]).
Qed.

Section S.
  Context {V : Type}.
  Implicit Types (f : frame V) (h : list (event V)).

  Lemma construct_cls cols : f_cls (@construct V cols) = constructor_class cols.
  Proof. unfold construct. destruct (constructor_class cols); reflexivity. Qed.
  Lemma operation_cls f cols : f_cls f <> PlainFrame -> f_cls (operation f cols) = constructor_class cols.
  Proof. intros H. unfold operation. destruct (f_cls f) eqn:E; [contradiction | |]; cbn [finalize f_cls]; apply construct_cls. Qed.
  Lemma merge_cls f cols : f_cls f <> PlainFrame -> f_cls (merge_concat f cols) = constructor_class cols.
  Proof.
    intros H. unfold merge_concat. rewrite <- (construct_cls cols).
    destruct (f_cls f) eqn:E; [contradiction | |]; unfold finalize_from; destruct (f_cls (construct cols)) eqn:E2; auto.
  Qed.
  Lemma construct_cols cols : f_cls (@construct V cols) <> PlainFrame -> f_cols (@construct V cols) = cols.
  Proof.
    rewrite construct_cls. intros H. unfold construct. destruct (constructor_class cols) eqn:E; [contradiction | |];
      cbn [new_catalog f_cols]; (destruct cols; [discriminate E | reflexivity]).
  Qed.

  (** C57: an operation on a catalogue returns the class that fits the columns of the result;
      for merge and concat the left / first object decides whether it is a catalogue at all. *)
  Theorem C57_class_of_result f cols k : f_cls f <> PlainFrame ->
    (f_cls (operation f cols) = k <-> fits cols k) /\ (f_cls (merge_concat f cols) = k <-> fits cols k).
  Proof. intros H. rewrite operation_cls, merge_cls by exact H. split; apply constructor_fits. Qed.

  (** once a plain DataFrame, always a plain DataFrame *)
  Theorem C57_plain_stays h f : f_cls f = PlainFrame -> f_cls (history f h) = PlainFrame.
  Proof.
    unfold history. revert f. induction h as [|e h IH]; intros f Hf; cbn [fold_left]; [exact Hf|].
    apply IH. destruct e; cbn [happens]; unfold operation, merge_concat, set_columns, set_attribute; try rewrite Hf; auto.
  Qed.

  (** along a history, the object is a catalogue as long as no result lacked the column
      magnitude, and a plain DataFrame from the first result on that lacks it *)
  Theorem C57_history h f : f_cls f <> PlainFrame ->
    (f_cls (history f h) <> PlainFrame <-> keeps "magnitude" h).
  Proof.
    unfold history. revert f. induction h as [|e h IH]; intros f Hf; cbn [fold_left].
    { split; [intros _ x c [] | auto]. }
    assert (Hk : keeps "magnitude" (e :: h) <-> (forall cols, returned e = Some cols -> In "magnitude" cols) /\ keeps "magnitude" h).
    { unfold keeps. split.
      - intros H. split; [intros c; apply (H e c); left; reflexivity | intros x c Hx; apply (H x c); right; exact Hx].
      - intros [H1 H2] x c [-> |Hx]; [apply H1 | apply (H2 x c Hx)]. }
    rewrite Hk.
    assert (G : forall cols, f_cls (happens f e) = constructor_class cols -> returned e = Some cols ->
              (f_cls (fold_left happens h (happens f e)) <> PlainFrame <-> (forall cols', returned e = Some cols' -> In "magnitude" cols') /\ keeps "magnitude" h)).
    { intros cols Hc Hr. destruct (in_dec string_dec "magnitude" cols) as [Hi|Hi].
      - rewrite IH; [| rewrite Hc; intros E; apply constructor_fits in E; contradiction].
        split; [intros K; split; [intros c' Hc'; rewrite Hr in Hc'; injection Hc' as <-; exact Hi | exact K] | intros [_ K]; exact K].
      - split; [| intros [K _]; elim Hi; exact (K cols Hr)].
        intros K. elim K. apply (C57_plain_stays h). rewrite Hc. apply constructor_fits. exact Hi. }
    destruct e as [c|c|c|n v].
    - apply (G c); [cbn [happens]; apply operation_cls; exact Hf | reflexivity].
    - apply (G c); [cbn [happens]; apply merge_cls; exact Hf | reflexivity].
    - rewrite IH by exact Hf. cbn [returned]. split; [intros K; split; [discriminate | exact K] | intros [_ K]; exact K].
    - rewrite IH by exact Hf. cbn [returned]. split; [intros K; split; [discriminate | exact K] | intros [_ K]; exact K].
  Qed.

  (** and right after a new object was made, the class fits its columns *)
  Theorem C57_last_result h f cols : f_cls (history f h) <> PlainFrame ->
    fits cols (f_cls (history f (app h [Derive cols]))) /\ fits cols (f_cls (history f (app h [MergeConcat cols]))).
  Proof.
    intros H. unfold history. rewrite !fold_left_app. cbn [fold_left happens].
    split; apply (proj1 (constructor_fits _ _)); symmetry; [apply operation_cls | apply merge_cls]; exact H.
  Qed.
  (** in-place changes keep the class, whatever the columns are *)
  Theorem C57_in_place f cols n v : f_cls (set_columns f cols) = f_cls f /\ f_cls (set_attribute f n v) = f_cls f.
  Proof. split; reflexivity. Qed.

  (** what an operation, a merge or a concatenation returns has the columns pandas gives it *)
  Theorem C57_columns f e cols : returned e = Some cols -> f_cols (happens f e) = cols.
  Proof.
    assert (K : forall c, f_cols (@construct V c) = c).
    { intros c. unfold construct. destruct (constructor_class c) eqn:E; [reflexivity| |]; cbn [new_catalog f_cols]; (destruct c; [discriminate E|reflexivity]). }
    intros H. destruct e as [c|c|c|n v]; cbn [returned] in H; inversion H; subst; cbn [happens]; [unfold operation|unfold merge_concat].
    - destruct (f_cls f); [reflexivity| |]; apply K.
    - destruct (f_cls f); [reflexivity| |]; unfold finalize_from; destruct (f_cls (construct cols)) eqn:E; apply K.
  Qed.

  (** ** C133: metadata *)
  Lemma metadata_in k n : k <> PlainFrame -> In n attribute_names -> mem n (metadata k) = true.
  Proof. intros Hk Hn. apply mem_In. destruct k; [contradiction | exact Hn | cbn [metadata]; apply in_or_app; left; exact Hn]. Qed.
  Lemma finalize_meta (self other : frame V) n : f_cls self <> PlainFrame -> f_cls other <> PlainFrame -> In n attribute_names ->
    f_meta (finalize self other) n = f_meta other n.
  Proof. intros H1 H2 Hn. cbn [finalize f_meta]. rewrite !metadata_in by assumption. reflexivity. Qed.
  Lemma finalize_from_meta (self other : frame V) n : f_cls self <> PlainFrame -> f_cls other <> PlainFrame -> In n attribute_names ->
    f_meta (finalize_from self other) n = f_meta other n.
  Proof.
    intros H1 H2 Hn. unfold finalize_from. destruct (f_cls self) eqn:E; [contradiction | |]; cbn [f_meta];
      rewrite (metadata_in _ n) by (assumption || discriminate); rewrite (metadata_in _ n) by assumption; reflexivity.
  Qed.
  Lemma step_meta f e n : f_cls f <> PlainFrame -> f_cls (happens f e) <> PlainFrame -> In n attribute_names ->
    f_meta (happens f e) n = last_assigned n [e] (f_meta f n).
  Proof.
    intros Hf He Hn. destruct e as [c|c|c|m v]; cbn [happens last_assigned] in *.
    - rewrite operation_cls in He by exact Hf. unfold operation. destruct (f_cls f) eqn:E; [contradiction | |];
        (rewrite finalize_meta; [reflexivity | rewrite construct_cls; exact He | rewrite E; discriminate | exact Hn]).
    - rewrite merge_cls in He by exact Hf. unfold merge_concat. destruct (f_cls f) eqn:E; [contradiction | |];
        (rewrite finalize_from_meta; [reflexivity | rewrite construct_cls; exact He | rewrite E; discriminate | exact Hn]).
    - reflexivity.
    - cbn [set_attribute f_meta]. rewrite String.eqb_sym. reflexivity.
  Qed.
  Lemma last_assigned_cons n e h (v : option V) : last_assigned n (e :: h) v = last_assigned n h (last_assigned n [e] v).
  Proof. destruct e; cbn [last_assigned]; try reflexivity. destruct (name =? n)%string; reflexivity. Qed.

  Theorem C133_metadata_survive h f n : f_cls (history f h) <> PlainFrame -> In n attribute_names ->
    f_meta (history f h) n = last_assigned n h (f_meta f n).
  Proof.
    unfold history. revert f. induction h as [|e h IH]; intros f Hf Hn; cbn [fold_left] in *; [reflexivity|].
    assert (He : f_cls (happens f e) <> PlainFrame).
    { intros K. apply Hf. exact (C57_plain_stays h _ K). }
    assert (H0 : f_cls f <> PlainFrame).
    { intros K. apply He. exact (C57_plain_stays [e] _ K). }
    rewrite (IH _ Hf Hn), last_assigned_cons. f_equal. apply step_meta; assumption.
  Qed.

  (** the number of catalogues survives as long as every result also has catalog_id *)
  Lemma step_n f e : f_cls f = IsForecast -> (forall c, returned e = Some c -> In "magnitude" c /\ In "catalog_id" c) ->
    f_cls (happens f e) = IsForecast /\ f_meta (happens f e) "n_catalogs" = last_assigned "n_catalogs" [e] (f_meta f "n_catalogs").
  Proof.
    intros Hf Hc. assert (Hn : f_cls f <> PlainFrame) by (rewrite Hf; discriminate).
    destruct e as [c|c|c|m v]; cbn [happens last_assigned returned] in *.
    - assert (K : constructor_class c = IsForecast) by (apply constructor_fits; exact (Hc c eq_refl)).
      assert (K' : f_cls (operation f c) = IsForecast) by (rewrite operation_cls; assumption). split; [exact K'|].
      unfold operation. rewrite Hf. cbn [finalize f_meta]. rewrite construct_cls, K, Hf. reflexivity.
    - assert (K : constructor_class c = IsForecast) by (apply constructor_fits; exact (Hc c eq_refl)).
      assert (K' : f_cls (merge_concat f c) = IsForecast) by (rewrite merge_cls; assumption). split; [exact K'|].
      unfold merge_concat. rewrite Hf. unfold finalize_from. rewrite construct_cls, K, Hf. reflexivity.
    - split; [exact Hf | reflexivity].
    - split; [exact Hf | cbn [set_attribute f_meta]; rewrite String.eqb_sym; reflexivity].
  Qed.
  Theorem C133_n_catalogs_survives h f : f_cls f = IsForecast -> keeps "magnitude" h -> keeps "catalog_id" h ->
    f_cls (history f h) = IsForecast /\ f_meta (history f h) "n_catalogs" = last_assigned "n_catalogs" h (f_meta f "n_catalogs").
  Proof.
    unfold history. revert f. induction h as [|e h IH]; intros f Hf H1 H2; cbn [fold_left]; [split; [exact Hf | reflexivity]|].
    destruct (step_n f e Hf) as [He Hm].
    { intros c Hc. split; [apply (H1 e c) | apply (H2 e c)]; auto; left; reflexivity. }
    destruct (IH (happens f e) He) as [Hc Hn].
    { intros x c Hx. apply (H1 x c). right. exact Hx. }
    { intros x c Hx. apply (H2 x c). right. exact Hx. }
    split; [exact Hc|]. rewrite Hn, last_assigned_cons, Hm. reflexivity.
  Qed.
  (** but it is lost with the column: putting catalog_id back does not bring it back *)
  Theorem C133_n_catalogs_lost f cols : f_cls f <> PlainFrame -> In "magnitude" cols -> ~ In "catalog_id" cols ->
    forall cols', fits cols' IsForecast -> f_meta (operation (operation f cols) cols') "n_catalogs" = None.
  Proof.
    intros Hf H1 H2 cols' H3. assert (K : constructor_class cols = IsCatalog) by (apply constructor_fits; split; assumption).
    assert (K' : constructor_class cols' = IsForecast) by (apply constructor_fits; exact H3).
    assert (E : f_cls (operation f cols) = IsCatalog) by (rewrite operation_cls; assumption).
    unfold operation at 1. rewrite E. cbn [finalize f_meta]. rewrite construct_cls, K', E. cbn [metadata].
    change (mem "n_catalogs" base_metadata) with false. rewrite andb_false_r.
    unfold construct. rewrite K'. reflexivity.
  Qed.

  (** ** C134: merge takes the metadata of the left object, concat of the first; the other
      objects' metadata do not matter, and nothing of them is in the result *)
  Theorem C134_first_decides f cols : f_cls f <> PlainFrame -> In "magnitude" cols ->
    (forall n, In n attribute_names -> f_meta (merge_concat f cols) n = f_meta f n) /\
    (f_cls f = IsForecast -> In "catalog_id" cols -> f_meta (merge_concat f cols) "n_catalogs" = f_meta f "n_catalogs").
  Proof.
    intros Hf Hm. split.
    - intros n Hn. apply (step_meta f (MergeConcat cols) n Hf); [| exact Hn]. cbn [happens]. rewrite merge_cls by exact Hf.
      intros E. apply constructor_fits in E. contradiction.
    - intros Hk Hc. apply (step_n f (MergeConcat cols) Hk). intros c E. injection E as <-. auto.
  Qed.
End S.

(** ** C136: columns dropped by name *)
Lemma append_length a b : String.length (a ++ b) = (String.length a + String.length b)%nat.
Proof. induction a; cbn [append String.length]; [reflexivity | rewrite IHa; reflexivity]. Qed.
Lemma substring_all s : substring 0 (String.length s) s = s.
Proof. induction s; cbn [String.length substring]; [reflexivity | rewrite IHs; reflexivity]. Qed.
Lemma substring_suffix p s : substring (String.length p) (String.length s) (p ++ s) = s.
Proof. induction p; cbn [String.length append substring]; [apply substring_all | exact IHp]. Qed.
Lemma substring_split n s : (n <= String.length s)%nat -> s = substring 0 n s ++ substring n (String.length s - n) s.
Proof.
  revert n. induction s as [|c s IH]; intros n Hn.
  - destruct n; [reflexivity | cbn [String.length] in Hn; lia].
  - destruct n.
    + rewrite Nat.sub_0_r, substring_all. reflexivity.
    + cbn [substring String.length append]. f_equal. apply IH. cbn [String.length] in Hn. lia.
Qed.
Lemma ends_with_spec e c : ends_with e c = true <-> exists p, c = p ++ e.
Proof.
  unfold ends_with. rewrite andb_true_iff, Nat.leb_le, String.eqb_eq. split.
  - intros [H1 H2]. exists (substring 0 (String.length c - String.length e) c).
    pattern c at 1. rewrite (substring_split (String.length c - String.length e) c) by lia.
    f_equal. replace (String.length c - (String.length c - String.length e))%nat with (String.length e) by lia. exact H2.
  - intros [p ->]. rewrite append_length. split; [lia|].
    replace (String.length p + String.length e - String.length e)%nat with (String.length p) by lia. apply substring_suffix.
Qed.
Lemma matches_end_spec l c : matches_end l c = true <-> ends_in l c.
Proof.
  unfold matches_end, ends_in. rewrite existsb_exists. split.
  - intros (e & He & Hc). apply orb_true_iff in Hc. destruct Hc as [Hc|Hc]; apply ends_with_spec in Hc; destruct Hc as [p ->]; exists p, e; auto.
  - intros (p & e & He & Hc). exists e. split; [exact He|]. apply orb_true_iff. destruct Hc as [-> | ->]; [left | right]; apply ends_with_spec; exists p; reflexivity.
Qed.
Lemma filter_selected {A} (q : A -> bool) (P : A -> Prop) l : (forall x, q x = true <-> P x) -> selected P l (filter q l).
Proof.
  intros H. induction l as [|x l IH]; cbn [filter]; [constructor|].
  destruct (q x) eqn:E; constructor; auto; [apply H; exact E | rewrite <- H, E; discriminate].
Qed.

Section S2.
  Context {V : Type}.
  Implicit Types (f : frame V).
  Lemma drop_columns_spec f (q : string -> bool) (P : string -> Prop) : (forall x, q x = true <-> P x) -> ~ P "magnitude" ->
    In "magnitude" (f_cols f) -> f_cls f <> PlainFrame ->
    selected (fun c => ~ P c) (f_cols f) (f_cols (drop_columns f q)) /\ fits (f_cols (drop_columns f q)) (f_cls (drop_columns f q)) /\
    (forall n, In n attribute_names -> f_meta (drop_columns f q) n = f_meta f n).
  Proof.
    intros Hq Hm Hi Hf. set (kept := filter (fun c => negb (q c)) (f_cols f)).
    assert (Hk : In "magnitude" kept).
    { apply filter_In. split; [exact Hi|]. destruct (q "magnitude") eqn:E; [apply Hq in E; contradiction | reflexivity]. }
    assert (Hc : constructor_class kept <> PlainFrame) by (intros E; apply constructor_fits in E; contradiction).
    assert (Hcols : f_cols (drop_columns f q) = kept).
    { unfold drop_columns, operation. fold kept. destruct (f_cls f); [contradiction | |]; cbn [finalize f_cols]; apply construct_cols; rewrite construct_cls; exact Hc. }
    split; [|split].
    - rewrite Hcols. apply filter_selected. intros x. rewrite negb_true_iff, <- Hq. destruct (q x); split; congruence.
    - rewrite Hcols. apply constructor_fits. symmetry. apply operation_cls. exact Hf.
    - intros n Hn. apply (step_meta f (Derive kept) n Hf); [| exact Hn]. cbn [happens]. rewrite operation_cls by exact Hf. exact Hc.
  Qed.
  Lemma not_ends l c : matches_end l c = false -> ~ ends_in l c.
  Proof. intros H. rewrite <- matches_end_spec, H. discriminate. Qed.

  Theorem C136_drop_uncertainties f : f_cls f <> PlainFrame -> In "magnitude" (f_cols f) ->
    let r := drop_uncertainties f in
    selected (fun c => ~ ends_in ["_uncertainty"; "_lowerUncertainty"; "_upperUncertainty"; "_confidenceLevel"] c) (f_cols f) (f_cols r) /\
    fits (f_cols r) (f_cls r) /\ (forall n, In n attribute_names -> f_meta r n = f_meta f n).
  Proof.
    intros Hf Hm r. apply drop_columns_spec; auto; [intros x; apply matches_end_spec|].
    apply not_ends. reflexivity.
  Qed.
  Theorem C136_drop_ids f : f_cls f <> PlainFrame -> In "magnitude" (f_cols f) ->
    let r := drop_ids f in
    selected (fun c => ~ ends_in ["eventID"; "originID"; "magnitudeID"] c) (f_cols f) (f_cols r) /\
    fits (f_cols r) (f_cls r) /\ (forall n, In n attribute_names -> f_meta r n = f_meta f n).
  Proof.
    intros Hf Hm r. apply drop_columns_spec; auto; [intros x; apply matches_end_spec|].
    apply not_ends. reflexivity.
  Qed.

  Lemma new_cols k cols : cols <> [] -> f_cols (@new_catalog V k cols none) = cols.
  Proof. destruct cols; [contradiction | reflexivity]. Qed.
  Lemma selected_in {A} (P : A -> Prop) l l' : selected P l l' -> forall x, In x l' <-> In x l /\ P x.
  Proof.
    induction 1 as [|x l l' Hx H IH|x l l' Hx H IH]; intros y; cbn [In]; [tauto | |]; rewrite IH; split.
    - intros [<-|[? ?]]; auto.
    - intros [[<-|?] ?]; auto.
    - intros [? ?]. auto.
    - intros [[<-|?] ?]; [contradiction | auto].
  Qed.
  (** from_dict: the columns of the dictionaries, without those that are not wanted *)
  Theorem C136_from_dict k cols unc ids : k <> PlainFrame -> In "magnitude" cols ->
    exists r, @from_dict V k cols unc ids = Ok r /\
      (forall c, In c (f_cols r) <-> In c cols /\
         (unc = false -> ~ ends_in ["_uncertainty"; "_lowerUncertainty"; "_upperUncertainty"; "_confidenceLevel"] c) /\
         (ids = false -> ~ ends_in ["eventID"; "originID"; "magnitudeID"] c)) /\
      (unc = true -> ids = true -> f_cls r = k) /\ (unc = false \/ ids = false -> fits (f_cols r) (f_cls r)).
  Proof.
    intros Hk Hm. assert (Hne : cols <> []) by (intros ->; exact Hm).
    set (d0 := @new_catalog V k cols none).
    assert (H0 : f_cols d0 = cols) by (apply new_cols; exact Hne).
    assert (Hf0 : f_cls d0 <> PlainFrame) by exact Hk.
    unfold from_dict. fold d0.
    set (d1 := if unc then d0 else drop_uncertainties d0).
    assert (H1 : (forall c, In c (f_cols d1) <-> In c cols /\ (unc = false -> ~ ends_in ["_uncertainty"; "_lowerUncertainty"; "_upperUncertainty"; "_confidenceLevel"] c)) /\
                 f_cls d1 <> PlainFrame /\ (unc = true -> f_cls d1 = k) /\ (unc = false -> fits (f_cols d1) (f_cls d1))).
    { unfold d1. destruct unc.
      - split; [intros c; rewrite H0; split; [intros H; split; [exact H | discriminate] | intros [H _]; exact H]|].
        split; [exact Hf0|]. split; [reflexivity | discriminate].
      - destruct (C136_drop_uncertainties d0 Hf0) as (A & B & _); [rewrite H0; exact Hm|]. rewrite H0 in A.
        assert (A' := selected_in _ _ _ A).
        split; [intros c; rewrite A'; split; intros [? ?]; split; auto|].
        split; [|split; [discriminate | auto]].
        intros E. rewrite E in B. apply B. apply A'. split; [exact Hm|]. apply not_ends. reflexivity. }
    destruct H1 as (H1 & Hf1 & H1k & H1f).
    replace (if unc then Ok d0 else Ok (drop_uncertainties d0)) with (@Ok (frame V) d1) by (unfold d1; destruct unc; reflexivity).
    cbn [rbind].
    assert (Hm1 : In "magnitude" (f_cols d1)) by (apply H1; split; [exact Hm | intros _; apply not_ends; reflexivity]).
    destruct ids.
    - exists d1. split; [reflexivity|]. split; [|split].
      + intros c. rewrite H1. split; [intros [? ?]; split; [assumption | split; [assumption | discriminate]] | intros (? & ? & _); auto].
      + auto.
      + intros [?|?]; [auto | discriminate].
    - exists (drop_ids d1). split; [destruct (f_cls d1) eqn:E; [contradiction | reflexivity | reflexivity]|].
      destruct (C136_drop_ids d1 Hf1 Hm1) as (A & B & _). assert (A' := selected_in _ _ _ A).
      split; [|split; [discriminate | auto]].
      intros c. rewrite A', H1. split; [intros [[? ?] ?]; split; [assumption | split; auto] | intros (? & ? & ?); auto].
  Qed.

  (** ** C135: strip *)
  Theorem C135_strip k cols (attrs : string -> option V) : k <> PlainFrame -> incl catalog_columns cols ->
    let f := new_catalog k cols attrs in
    let wanted := match k with IsForecast => fun c => In c catalog_columns \/ c = "catalog_id" | _ => fun c => In c catalog_columns end in
    exists g r, strip_columns f false = Ok (f, Some r) /\ strip_columns f true = Ok (g, None) /\
      selected wanted cols (f_cols r) /\ f_cols g = f_cols r /\
      (forall n, In n attribute_names -> f_meta r n = f_meta f n /\ f_meta g n = f_meta f n).
  Proof.
    intros Hk Hi f wanted. assert (Hne : cols <> []) by (intros ->; exact (Hi "magnitude" ltac:(cbn; tauto))).
    assert (Hc : f_cols f = cols) by (destruct cols; [contradiction | reflexivity]).
    assert (Hreq : check_required_cols (f_cols f) catalog_columns = true).
    { rewrite Hc. unfold check_required_cols. apply forallb_forall. intros x Hx. apply mem_In. apply Hi. exact Hx. }
    unfold strip_columns. rewrite Hreq. set (kept := filter (fun c => mem c (f_req f)) (f_cols f)).
    exists (set_columns f kept), (operation f kept). split; [reflexivity|]. split; [reflexivity|].
    assert (Hm : In "magnitude" kept).
    { apply filter_In. split; [rewrite Hc; apply Hi; cbn; tauto|]. destruct k; [contradiction | reflexivity | reflexivity]. }
    assert (Hcl : constructor_class kept <> PlainFrame) by (intros E; apply constructor_fits in E; contradiction).
    assert (Hcols : f_cols (operation f kept) = kept).
    { unfold operation. destruct (f_cls f) eqn:E; [contradiction | |]; cbn [finalize f_cols]; apply construct_cols; rewrite construct_cls; exact Hcl. }
    split; [|split].
    - rewrite Hcols. unfold kept. rewrite Hc. apply filter_selected. intros x. rewrite mem_In. unfold wanted, f. cbn [new_catalog f_req].
      destruct k; [contradiction | reflexivity |]. cbn [class_required]. rewrite in_app_iff. cbn [In]. intuition.
    - rewrite Hcols. reflexivity.
    - intros n Hn. split; [|reflexivity]. apply (step_meta f (Derive kept) n); [exact Hk | | exact Hn].
      cbn [happens]. rewrite operation_cls by exact Hk. exact Hcl.
  Qed.
  Theorem C135_strip_needs_columns f inplace : ~ incl catalog_columns (f_cols f) -> strip_columns f inplace = Err AttributeError.
  Proof.
    intros H. unfold strip_columns. destruct (check_required_cols _ _) eqn:E; [|reflexivity].
    elim H. unfold check_required_cols in E. rewrite forallb_forall in E. intros x Hx. apply mem_In. apply E. exact Hx.
  Qed.
End S2.

(** C137: the same cannot be said of every ForecastCatalog: one that comes from a Catalog by
    an operation that adds catalog_id has the Catalog's list of required columns, and strip
    drops catalog_id, so the result is no ForecastCatalog any more. *)
Definition forecast_columns := app catalog_columns ["catalog_id"].
Theorem C137_forecast_strip_refuted :
  ~ (forall (f : frame nat) g r, f_cls f = IsForecast -> fits (f_cols f) IsForecast -> incl catalog_columns (f_cols f) ->
       strip_columns f false = Ok (g, Some r) -> f_cls r = IsForecast).
Proof.
  intros H. specialize (H (operation (new_catalog IsCatalog catalog_columns none) forecast_columns)).
  specialize (H (operation (new_catalog IsCatalog catalog_columns none) forecast_columns)
                (operation (operation (new_catalog IsCatalog catalog_columns none) forecast_columns) catalog_columns)).
  assert (K : f_cls (operation (@operation nat (new_catalog IsCatalog catalog_columns none) forecast_columns) catalog_columns) = IsForecast).
  { apply H; [reflexivity | cbn; intuition | intros x Hx; cbn in *; intuition | reflexivity]. }
  discriminate K.
Qed.

(** In general: every ForecastCatalog that an operation makes of a Catalog loses catalog_id, and its
    class, when it is stripped. *)
Theorem C137_always_refuted {V} : forall cols (attrs : string -> option V) cols', incl catalog_columns cols -> incl forecast_columns cols' ->
  let f := operation (new_catalog IsCatalog cols attrs) cols' in
  f_cls f = IsForecast /\ exists r, strip_columns f false = Ok (f, Some r) /\ f_cls r = IsCatalog /\ ~ In "catalog_id" (f_cols r).
Proof.
  intros cols attrs cols' Hi Hi' f. set (g := new_catalog IsCatalog cols attrs) in *.
  assert (Hm : In "magnitude" cols') by (apply Hi'; cbn; tauto). assert (Hid : In "catalog_id" cols') by (apply Hi'; cbn; tauto).
  assert (Hne : cols' <> []) by (intros ->; exact Hm).
  assert (Hc : constructor_class cols' = IsForecast).
  { apply constructor_fits. cbn. tauto. }
  assert (Cf : f_cls f = IsForecast) by (unfold f; rewrite operation_cls by discriminate; exact Hc).
  assert (Cc : f_cols f = cols').
  { unfold f, operation. cbn [g new_catalog f_cls finalize f_cols]. apply construct_cols. rewrite construct_cls, Hc. discriminate. }
  assert (Cr : f_req f = catalog_columns).
  { unfold f, operation. cbn [g new_catalog f_cls finalize f_req]. rewrite construct_cls, Hc. reflexivity. }
  split; [exact Cf|]. unfold strip_columns. rewrite Cc, Cr.
  assert (Hreq : check_required_cols cols' catalog_columns = true) by (unfold check_required_cols; apply forallb_forall; intros x Hx; apply mem_In, Hi'; unfold forecast_columns; apply in_app_iff; left; exact Hx).
  rewrite Hreq. eexists. split; [reflexivity|]. set (kept := filter (fun c => mem c catalog_columns) cols').
  assert (Km : In "magnitude" kept) by (apply filter_In; split; [exact Hm|reflexivity]).
  assert (Ki : ~ In "catalog_id" kept) by (intros K; apply filter_In in K; destruct K as [_ K]; discriminate K).
  assert (Kc : constructor_class kept = IsCatalog).
  { apply constructor_fits. cbn. tauto. }
  split; [rewrite operation_cls by (rewrite Cf; discriminate); exact Kc|].
  unfold operation. rewrite Cf. cbn [finalize f_cols]. rewrite construct_cols by (rewrite construct_cls, Kc; discriminate). exact Ki.
Qed.

(** ** Examples *)
(* a Catalog with mc = 1; select columns, add catalog_id in place, sort, drop magnitude *)
Example C57_ex : let f := set_attribute (@new_catalog nat IsCatalog ["time"; "magnitude"; "depth"] none) "mc" (Some 1%nat) in
  f_cls (history f [Derive ["time"; "magnitude"]; InPlace ["time"; "magnitude"; "catalog_id"]]) = IsCatalog /\
  f_cls (history f [Derive ["time"; "magnitude"]; InPlace ["time"; "magnitude"; "catalog_id"]; Derive ["time"; "magnitude"; "catalog_id"]]) = IsForecast /\
  f_meta (history f [Derive ["time"; "magnitude"]; Assign "b_value" (Some 2%nat); Derive ["magnitude"; "catalog_id"]]) "mc" = Some 1%nat /\
  f_cls (history f [Derive ["time"]; Derive ["time"; "magnitude"]]) = PlainFrame.
Proof. repeat split. Qed.
Example C133_ex : keeps "magnitude" [@Derive nat ["time"; "magnitude"]; InPlace []; MergeConcat ["magnitude"]].
Proof. intros e c [<-|[<-|[<-|[]]]] E; cbn [returned] in E; try discriminate; injection E as <-; cbn; auto. Qed.
Example C136_ex : f_cols (drop_ids (@new_catalog nat IsCatalog ["magnitude"; "eventID"; "magnitude_ML_magnitudeID"; "eventID_old"] none)) = ["magnitude"; "eventID_old"].
Proof. reflexivity. Qed.
Example C135_ex : match strip_columns (@new_catalog nat IsForecast ("note" :: forecast_columns) none) false with Ok (_, Some r) => f_cols r = forecast_columns | _ => False end.
Proof. reflexivity. Qed.
Print Assumptions C57_history.
Print Assumptions C57_columns.
Print Assumptions C133_metadata_survive.
Print Assumptions C136_from_dict.
Print Assumptions C137_forecast_strip_refuted.
Print Assumptions C137_always_refuted.
