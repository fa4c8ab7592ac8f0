(** * Lemmas about Table_model.v *)
From Coq Require Import ZArith QArith List Bool String Lia.
From Verif Require Import Base Num Dict Utils_model QuakeML_model Xml_model Catalog_model Table_model Spec_Table.
From Verif Require Numeric_model Times_model.
Import ListNotations.
Open Scope string_scope.

Lemma mem_In c l : mem c l = true <-> In c l.
Proof.
  unfold mem. induction l as [|x l IH]; cbn; [split; [discriminate|tauto]|]. rewrite orb_true_iff, IH, String.eqb_eq. split; intros [?|?]; auto.
Qed.
Section T.
  Context {T : Type} {N : Num T}.
  Notation table := (table T).
  Notation entry := (entry T).

  (** ** conversions *)
  Lemma all_some_map {A} (l : list A) f : Numeric_model.all_some (map (fun x => Some (f x)) l) = Some (map f l).
  Proof. induction l as [|x l IH]; cbn; [reflexivity|]. rewrite IH. reflexivity. Qed.
  Lemma all_some_fits (l : list (Numeric_model.cell T)) zs : Numeric_model.to_numeric l = Numeric_model.Ints zs -> Numeric_model.fits zs = true.
  Proof. unfold Numeric_model.to_numeric. destruct (Numeric_model.all_some _) as [r|]; [|discriminate]. destruct (Numeric_model.fits r) eqn:E; [|discriminate]. intros [= <-]. exact E. Qed.
  Lemma floats_nonempty (l : list (Numeric_model.cell T)) r : Numeric_model.to_numeric l = Numeric_model.Floats r -> r <> [].
  Proof. intros E ->. destruct l as [|c l]; [discriminate|]. unfold Numeric_model.to_numeric in E. destruct (Numeric_model.all_some _) as [zs|]; [destruct (Numeric_model.fits zs); discriminate|discriminate]. Qed.
  Lemma numeric_length (l : list (Numeric_model.cell T)) : List.length (of_numeric (Numeric_model.to_numeric l)) = List.length l.
  Proof.
    unfold Numeric_model.to_numeric. destruct (Numeric_model.all_some _) as [zs|] eqn:E; [destruct (Numeric_model.fits zs)|]; cbn [of_numeric]; rewrite ?map_length; try reflexivity.
    assert (L : List.length zs = List.length (map snd (map Numeric_model.convert l))).
    { revert zs E. generalize (map snd (map Numeric_model.convert l)). induction l0 as [|[z|] m IH]; cbn; intros zs; [intros [= <-]; reflexivity| |discriminate].
      destruct (Numeric_model.all_some m); [|discriminate]. intros [= <-]. cbn. rewrite <- (IH _ eq_refl). reflexivity. }
    rewrite L, !map_length. reflexivity.
  Qed.
  Lemma numeric_again (l : list (Numeric_model.cell T)) :
    Numeric_model.to_numeric (map num_cell (of_numeric (Numeric_model.to_numeric l))) = Numeric_model.to_numeric l.
  Proof.
    destruct (Numeric_model.to_numeric l) as [zs|r] eqn:E; cbn [of_numeric]; rewrite map_map; cbn [num_cell]; unfold Numeric_model.to_numeric.
    - rewrite !map_map. cbn [Numeric_model.convert snd]. rewrite (all_some_map zs (fun z => z)), map_id, (all_some_fits _ _ E). reflexivity.
    - rewrite !map_map. cbn [Numeric_model.convert fst snd]. rewrite map_id. pose proof (floats_nonempty _ _ E). destruct r; [contradiction|]. reflexivity.
  Qed.
  Lemma convert_all_dates (r : list (option Z)) x : Times_model.convert_all (map (fun o => time_cell (@of_time T o)) r) = Some x ->
    map fst x = r /\ Forall (fun p => snd p <> Some true) x.
  Proof.
    revert x. induction r as [|o r IH]; cbn [map Times_model.convert_all]; intros x; [intros [= <-]; split; [reflexivity|constructor]|].
    destruct (Times_model.convert_cell _) as [[v f]|] eqn:E; [|discriminate]. cbn [Times_model.obind]. destruct (Times_model.convert_all _) as [y|]; [|discriminate]. cbn [Times_model.obind].
    intros [= <-]. destruct (IH y eq_refl) as [I1 I2]. cbn [map fst]. assert (v = o /\ f <> Some true) as [-> Hf].
    { destruct o as [ns|]; cbn in E; [|injection E; intros <- <-; split; [reflexivity|discriminate]]. unfold Times_model.stamp in E. destruct (_ && _)%bool; cbn in E; [|discriminate]. injection E; intros <- <-. split; [reflexivity|discriminate]. }
    split; [rewrite I1; reflexivity|]. constructor; [exact Hf|exact I2].
  Qed.
  Lemma fallback_dates (r : list (option Z)) : Times_model.fallback_all (map (fun o => time_cell (@of_time T o)) r) = Ok r.
  Proof. induction r as [|[ns|] r IH]; cbn [map Times_model.fallback_all]; [reflexivity| |]; cbn [of_time time_cell Times_model.fallback_cell rbind]; rewrite IH; reflexivity. Qed.
  Lemma time_again (r : list (option Z)) : Times_model.time_column (map time_cell (map (@of_time T) r)) = Ok r.
  Proof.
    rewrite map_map. unfold Times_model.time_column. destruct (Times_model.convert_all _) as [x|] eqn:E; [|apply fallback_dates].
    destruct (convert_all_dates r x E) as [E1 E2]. replace (existsb (fun p => match snd p with Some true => true | _ => false end) x) with false; [cbn [andb]; rewrite E1; reflexivity|].
    symmetry. clear E E1. induction E2 as [|p x H _ IH]; [reflexivity|]. cbn [existsb]. rewrite IH. destruct (snd p) as [[|]|]; [congruence|reflexivity|reflexivity].
  Qed.
  Lemma clean_again (e : entry) : clean (clean e) = clean e.
  Proof. destruct e as [|s|x|z|ns]; try reflexivity. cbn [clean]. unfold clean_text. destruct (mem s missing_texts) eqn:E; [reflexivity|]. cbn [clean]. unfold clean_text. rewrite E. reflexivity. Qed.
  Lemma convert_again c (l l' : list entry) : convert_column c l = Ok l' -> convert_column c l' = Ok l'.
  Proof.
    unfold convert_column. destruct (mem c numeric_cols).
    - intros [= <-]. rewrite numeric_again. reflexivity.
    - destruct (c =? "time").
      + destruct (Times_model.time_column _) as [r|]; [|discriminate]. intros [= <-]. rewrite time_again. reflexivity.
      + destruct (mem c string_cols); intros [= <-]; [|reflexivity]. rewrite map_map. f_equal. apply map_ext. exact clean_again.
  Qed.
  Lemma time_length l r : Times_model.time_column l = Ok r -> List.length r = List.length l.
  Proof.
    unfold Times_model.time_column. destruct (Times_model.convert_all l) as [x|] eqn:E.
    - assert (L : List.length x = List.length l).
      { revert x E. induction l as [|c l IH]; cbn; intros x; [intros [= <-]; reflexivity|]. destruct (Times_model.convert_cell c); [|discriminate]. cbn. destruct (Times_model.convert_all l); [|discriminate]. cbn. intros [= <-]. cbn. rewrite (IH _ eq_refl). reflexivity. }
      destruct (_ && _)%bool; [discriminate|]. intros [= <-]. rewrite map_length. exact L.
    - clear E. revert r. induction l as [|c l IH]; cbn; intros r; [intros [= <-]; reflexivity|]. destruct (Times_model.fallback_cell c); [|discriminate]. cbn. destruct (Times_model.fallback_all l); [|discriminate]. cbn. intros [= <-]. cbn. rewrite (IH _ eq_refl). reflexivity.
  Qed.
  Lemma convert_length c (l l' : list entry) : convert_column c l = Ok l' -> List.length l' = List.length l.
  Proof.
    unfold convert_column. destruct (mem c numeric_cols); [intros [= <-]; rewrite numeric_length, map_length; reflexivity|]. destruct (c =? "time").
    - destruct (Times_model.time_column _) as [r|] eqn:E; [|discriminate]. intros [= <-]. rewrite map_length, (time_length _ _ E), map_length. reflexivity.
    - destruct (mem c string_cols); intros [= <-]; rewrite ?map_length; reflexivity.
  Qed.

  (** ** all columns *)
  Lemma dget_In {V} (d : dict V) c v : dget d c = Some v -> In c (map fst d).
  Proof. induction d as [|[x y] d IH]; cbn; [discriminate|]. destruct (String.eqb_spec c x); [auto|right; auto]. Qed.
  Definition converted (cs : list (string * list entry)) : Prop := Forall (fun ce => convert_column (fst ce) (snd ce) = Ok (snd ce)) cs.
  Lemma convert_columns_ok cs cs' : convert_columns cs = Ok cs' ->
    map fst cs' = map fst cs /\ converted cs' /\ (forall c l, dget cs c = Some l -> exists l', dget cs' c = Some l' /\ convert_column c l = Ok l').
  Proof.
    revert cs'. induction cs as [|[c l] cs IH]; cbn [convert_columns]; intros cs'; [intros [= <-]; split; [reflexivity|]; split; [constructor|discriminate]|].
    destruct (convert_column c l) as [l'|] eqn:E; [|discriminate]. cbn [rbind]. destruct (convert_columns cs) as [t|]; [|discriminate]. cbn [rbind]. intros [= <-].
    destruct (IH t eq_refl) as (I1 & I2 & I3). split; [cbn; rewrite I1; reflexivity|]. split.
    - constructor; [cbn; exact (convert_again _ _ _ E)|exact I2].
    - intros c' x. cbn [dget]. destruct (c' =? c) eqn:F; [|apply I3]. apply String.eqb_eq in F. subst c'. intros [= <-]. exists l'. split; [reflexivity|exact E].
  Qed.
  Lemma convert_columns_id cs : converted cs -> convert_columns cs = Ok cs.
  Proof. induction 1 as [|[c l] cs H _ IH]; [reflexivity|]. cbn [convert_columns fst snd] in *. rewrite H. cbn [rbind]. rewrite IH. reflexivity. Qed.
  Lemma convert_columns_some cs : (forall l, dget cs "time" = Some l -> exists l', convert_column "time" l = Ok l') -> NoDup (map fst cs) -> exists cs', convert_columns cs = Ok cs'.
  Proof.
    induction cs as [|[c l] cs IH]; intros H ND; [eexists; reflexivity|]. cbn [map fst] in ND. inversion_clear ND as [|? ? N1 N2]. destruct IH as [t E]; [|exact N2|].
    - intros l' Hl. cbn [dget] in H. destruct ("time" =? c) eqn:F; [|apply H; exact Hl]. apply String.eqb_eq in F. subst c. exfalso. apply N1. exact (dget_In _ _ _ Hl).
    - cbn [convert_columns]. assert (exists l', convert_column c l = Ok l') as [l' El].
      { destruct (String.eqb_spec c "time") as [-> |Hc]; [apply H; reflexivity|]. unfold convert_column. rewrite (proj2 (String.eqb_neq c "time") Hc). destruct (mem c numeric_cols); [eexists; reflexivity|]. destruct (mem c string_cols); eexists; reflexivity. }
      rewrite El. cbn [rbind]. rewrite E. eexists. reflexivity.
  Qed.
  Lemma init_nonempty (t : table) : t_cols t <> [] -> init_table t = rmap (mktable (t_rows t)) (convert_columns (t_cols t)).
  Proof. destruct t as [n [|x l]]; cbn [t_cols]; [contradiction|]. reflexivity. Qed.
  Lemma init_converted (t t' : table) : init_table t = Ok t' -> converted (t_cols t') /\ t_cols t' <> [].
  Proof.
    unfold init_table. set (u := match t_cols t with [] => _ | _ => _ end). assert (U : t_cols u <> []) by (unfold u; destruct (t_cols t) eqn:E; [discriminate|rewrite E; discriminate]).
    destruct (convert_columns (t_cols u)) as [cs|] eqn:E; [|discriminate]. intros [= <-]. cbn [t_cols]. destruct (convert_columns_ok _ _ E) as (A & B & _). split; [exact B|]. intros ->. apply U. destruct (t_cols u); [reflexivity|discriminate].
  Qed.
  Lemma init_again (t : table) : converted (t_cols t) -> t_cols t <> [] -> init_table t = Ok t.
  Proof. intros H Hn. rewrite init_nonempty by exact Hn. rewrite convert_columns_id by exact H. destruct t. reflexivity. Qed.

  (** ** dropping columns does not change the others *)
  Definition without (p : string -> bool) (t : table) : table := mktable (t_rows t) (filter (fun ce => negb (p (fst ce))) (t_cols t)).
  Lemma without_converted p (t : table) : converted (t_cols t) -> converted (t_cols (without p t)).
  Proof. unfold converted, without. cbn [t_cols]. rewrite !Forall_forall. intros H x Hx. apply filter_In in Hx. apply H. tauto. Qed.
  Lemma drop_cols_ok p k (t : table) : converted (t_cols t) -> drop_cols p (k, t) = Ok (constructor_class (map fst (t_cols (without p t))), without p t).
  Proof.
    intros H. unfold drop_cols. cbn [snd]. fold (without p t). pose proof (without_converted p t H) as W.
    assert (Hn : constructor_class (map fst (t_cols (without p t))) <> PlainFrame -> t_cols (without p t) <> []).
    { intros K Z. apply K. rewrite Z. reflexivity. }
    destruct (constructor_class _) eqn:E; [reflexivity| |]; (rewrite init_again; [reflexivity|exact W|apply Hn; discriminate]).
  Qed.
  Definition kept (iu ii : bool) (c : string) : bool := (iu || negb (matches_end uncertainty_suffixes c)) && (ii || negb (matches_end id_suffixes c)).
  Definition only (f : string -> bool) (t : table) : table := mktable (t_rows t) (filter (fun ce => f (fst ce)) (t_cols t)).
  Lemma filter_filter {A} (f g : A -> bool) l : filter f (filter g l) = filter (fun x => g x && f x)%bool l.
  Proof. induction l as [|x l IH]; [reflexivity|]. cbn. destruct (g x); cbn; [destruct (f x)|]; rewrite ?IH; reflexivity. Qed.
  Lemma filter_all {A} (f : A -> bool) l : (forall x, f x = true) -> filter f l = l.
  Proof. intros H. induction l as [|x l IH]; [reflexivity|]. cbn. rewrite H, IH. reflexivity. Qed.
  Lemma from_dict_shape k rs iu ii k' (t : table) : table_from_dict k rs iu ii = Ok (k', t) ->
    exists t0, init_table (frame_of rs) = Ok t0 /\ t = only (kept iu ii) t0 /\ (iu = true -> ii = true -> k' = k) /\ (iu = false \/ ii = false -> k' = constructor_class (map fst (t_cols t))).
  Proof.
    unfold table_from_dict. destruct (init_table (frame_of rs)) as [t0|] eqn:E; [|discriminate]. cbn [rbind]. destruct (init_converted _ _ E) as [C _].
    assert (O : forall f, only f t0 = mktable (t_rows t0) (filter (fun ce => f (fst ce)) (t_cols t0))) by reflexivity.
    destruct iu.
    - cbn [rbind fst]. destruct ii.
      + intros [= <- <-]. exists t0. split; [reflexivity|]. split; [|split; [reflexivity|intros [?|?]; discriminate]]. rewrite O. rewrite filter_all; [destruct t0; reflexivity|]. intros x. reflexivity.
      + destruct k; try discriminate; rewrite (drop_cols_ok _ _ _ C); intros [= <- <-]; exists t0; (split; [reflexivity|]; split; [rewrite O; unfold without; f_equal|split; [discriminate|reflexivity]]).
    - rewrite (drop_cols_ok _ _ _ C). cbn [rbind]. pose proof (without_converted (matches_end uncertainty_suffixes) _ C) as C1. destruct ii.
      + intros [= <- <-]. exists t0. split; [reflexivity|]. split; [rewrite O; unfold without; f_equal; apply filter_ext; intros x; unfold kept; cbn [orb]; rewrite andb_true_r; reflexivity|split; [discriminate|reflexivity]].
      + cbn [fst]. set (k1 := constructor_class _). destruct k1; [discriminate| |]; rewrite (drop_cols_ok _ _ _ C1); intros [= <- <-]; exists t0; (split; [reflexivity|]; split; [rewrite O; unfold without; cbn [t_cols t_rows]; rewrite filter_filter; reflexivity|split; [discriminate|reflexivity]]).
  Qed.
  Lemma class_magnitude cols : constructor_class cols = PlainFrame <-> ~ In "magnitude" cols.
  Proof.
    unfold constructor_class, check_required_cols. cbn [forallb]. rewrite andb_true_r. destruct (mem "magnitude" cols) eqn:E; cbn [negb].
    - apply mem_In in E. destruct (_ && _)%bool; cbn [negb]; split; (discriminate || contradiction).
    - split; [intros _ K|reflexivity]. apply mem_In in K. congruence.
  Qed.

  (** ** the columns of the records *)
  Lemma add_names_in l : forall seen c, In c (add_names seen l) <-> In c seen \/ In c l.
  Proof.
    induction l as [|n l IH]; cbn; intros seen c; [tauto|]. rewrite IH. destruct (mem n seen) eqn:E; [apply mem_In in E; intuition (subst; auto)|]. rewrite in_app_iff. cbn. tauto.
  Qed.
  Lemma add_names_nodup l : forall seen, NoDup seen -> NoDup (add_names seen l).
  Proof.
    induction l as [|n l IH]; cbn; intros seen H; [exact H|]. apply IH. destruct (mem n seen) eqn:E; [exact H|].
    assert (~ In n seen) by (intros K; apply mem_In in K; congruence). apply NoDup_rev in H. rewrite <- (rev_involutive (seen ++ [n])). apply NoDup_rev. rewrite rev_app_distr. cbn. constructor; [rewrite <- in_rev; assumption|exact H].
  Qed.
  Lemma names_of_in rs c : In c (names_of rs) <-> exists r, In r rs /\ In c (map fst r).
  Proof.
    unfold names_of. assert (G : forall seen, In c (fold_left (fun seen r => add_names seen (map fst r)) rs seen) <-> In c seen \/ exists r, In r rs /\ In c (map fst r)).
    { induction rs as [|r rs IH]; cbn; intros seen; [split; [auto|intros [?|(? & [] & _)]; assumption]|]. rewrite IH, add_names_in. split.
      - intros [[?|?]|(x & ? & ?)]; [auto|right; exists r; auto|right; exists x; auto].
      - intros [?|(x & [<-|?] & ?)]; [auto|auto|right; exists x; auto]. }
    rewrite G. cbn. intuition.
  Qed.
  Lemma names_of_nodup rs : NoDup (names_of rs).
  Proof.
    unfold names_of. assert (G : forall seen, NoDup seen -> NoDup (fold_left (fun seen r => add_names seen (map fst r)) rs seen)); [|apply G; constructor].
    induction rs as [|r rs IH]; cbn; intros seen H; [exact H|]. apply IH, add_names_nodup, H.
  Qed.
  Lemma frame_names rs : map fst (t_cols (@frame_of T rs)) = names_of rs.
  Proof. unfold frame_of. cbn [t_cols]. rewrite map_map. cbn. apply map_id. Qed.
  Lemma frame_column rs c : In c (names_of rs) -> dget (t_cols (@frame_of T rs)) c = Some (map (fun r => entry_of r c) rs).
  Proof.
    unfold frame_of. cbn [t_cols]. induction (names_of rs) as [|x l IH]; cbn; [tauto|]. intros [-> |H]; [rewrite String.eqb_refl; reflexivity|]. destruct (String.eqb_spec c x) as [-> |]; [reflexivity|auto].
  Qed.
  Lemma In_dget {V} (d : dict V) c : In c (map fst d) -> exists v, dget d c = Some v.
  Proof. induction d as [|[x y] d IH]; cbn; [tauto|]. destruct (String.eqb_spec c x); [eauto|intros [?|?]; [congruence|auto]]. Qed.
  Lemma dget_filter {V} (f : string -> bool) (d : dict V) c : f c = true -> dget (filter (fun ce => f (fst ce)) d) c = dget d c.
  Proof.
    intros H. induction d as [|[x y] d IH]; [reflexivity|]. cbn [filter fst]. destruct (String.eqb_spec c x) as [-> |Hc].
    - rewrite H. cbn. rewrite String.eqb_refl. reflexivity.
    - destruct (f x); cbn; rewrite (proj2 (String.eqb_neq c x) Hc); exact IH.
  Qed.

  (** what is in a column of the result *)
  Lemma from_dict_column k rs iu ii k' (t : table) c : table_from_dict k rs iu ii = Ok (k', t) -> names_of rs <> [] ->
    (In c (map fst (t_cols t)) <-> In c (names_of rs) /\ kept iu ii c = true) /\
    (forall l, dget (t_cols t) c = Some l -> convert_column c (map (fun r => entry_of r c) rs) = Ok l) /\ NoDup (map fst (t_cols t)) /\ t_rows t = List.length rs.
  Proof.
    intros H Hn. destruct (from_dict_shape _ _ _ _ _ _ H) as (t0 & E & -> & _).
    assert (Hf : t_cols (@frame_of T rs) <> []) by (intros K; apply Hn; rewrite <- frame_names, K; reflexivity).
    rewrite init_nonempty in E by exact Hf. destruct (convert_columns _) as [cs|] eqn:C; [|discriminate]. injection E; intros <-. clear E.
    destruct (convert_columns_ok _ _ C) as (A & B & D). rewrite frame_names in A. cbn [only t_cols t_rows].
    assert (I : forall c, In c (map fst (filter (fun ce => kept iu ii (fst ce)) cs)) <-> In c (names_of rs) /\ kept iu ii c = true).
    { intros x. rewrite <- A, !in_map_iff. split.
      - intros ((a & b) & <- & K). apply filter_In in K. cbn in *. split; [exists (a, b); tauto|tauto].
      - intros (((a & b) & <- & K) & F). exists (a, b). rewrite filter_In. auto. }
    split; [apply I|]. split; [|split; [|reflexivity]].
    - intros l Hl. pose proof (proj1 (I c) (dget_In _ _ _ Hl)) as [I1 I2]. rewrite dget_filter in Hl by exact I2. destruct (D c _ (frame_column rs c I1)) as (l' & L1 & L2). rewrite Hl in L1. injection L1; intros ->. exact L2.
    - pose proof (names_of_nodup rs) as ND. rewrite <- A in ND. clear -ND. induction cs as [|[a b] cs IH]; cbn; [constructor|]. inversion_clear ND as [|? ? N1 N2]. destruct (kept iu ii a); [|auto]. cbn. constructor; [|auto].
      intros K. apply N1. apply in_map_iff in K. destruct K as (x & <- & K). apply filter_In in K. apply in_map. tauto.
  Qed.
End T.
