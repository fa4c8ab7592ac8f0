(** * C55: which magnitudes a record reports *)
From Coq Require Import List Bool String Ascii Lia ZArith QArith Permutation.
From Verif Require Import Base Dict QuakeML_model Spec_QuakeML QuakeML_proofs Props_QuakeML SortLib.
Import ListNotations.
Open Scope string_scope.
Open Scope nat_scope.

(** ** Specification *)
(** fields of a magnitude and the suffixes of their columns *)
Definition value_columns := [("magnitudemagvalue", ""); ("magnitudemaguncertainty", "_uncertainty"); ("magnitudemaglowerUncertainty", "_lowerUncertainty");
  ("magnitudemagupperUncertainty", "_upperUncertainty"); ("magnitudemagconfidenceLevel", "_confidenceLevel")].
(** for the columns of one magnitude type also the id of the magnitude *)
Definition columns := app value_columns [("magnitudepublicID", "_magnitudeID")].
(** type names that cannot be confused with other columns *)
Fixpoint no_underscore (s : string) : bool := match s with "" => true | String c t => negb (Ascii.eqb c "_"%char) && no_underscore t end.
Definition tidy (t : string) : Prop := no_underscore t = true /\ ~ In t ["type"; "uncertainty"; "lowerUncertainty"; "upperUncertainty"; "confidenceLevel"].
Definition type_of (m : pd) (t : string) : Prop := dget m "magnitudetype" = Some (Some t).
Definition id_of (m : pd) (i : option string) : Prop := dget m "magnitudepublicID" = Some i.
(** the first element of [l] that satisfies P *)
Definition first_with {A} (P : A -> Prop) (l : list A) (x : A) : Prop := exists l1 l2, l = app l1 (x :: l2) /\ P x /\ forall y, In y l1 -> ~ P y.

Section Newest.
  Variable to_float : option string -> res Q.
  Variable to_time : option string -> res Z.
  Definition version (m : pd) (q : Q) : Prop := exists x, dget m "magnitudecreationInfoversion" = Some x /\ to_float x = Ok q.
  Definition created (m : pd) (z : Z) : Prop := exists x, dget m "magnitudecreationInfocreationTime" = Some x /\ to_time x = Ok z.
  (** [a] is newer than [b] among [l]: larger version, then later creation time; versions
      (times) count only if all of [l] have one *)
  Definition with_version (l : list pd) : Prop := forall m, In m l -> dget m "magnitudecreationInfoversion" <> None.
  Definition with_time (l : list pd) : Prop := forall m, In m l -> dget m "magnitudecreationInfocreationTime" <> None.
  Definition newer (l : list pd) (a b : pd) : Prop :=
    (with_version l /\ exists p q, version a p /\ version b q /\ (q < p)%Q) \/
    ((with_version l -> exists p q, version a p /\ version b q /\ (p == q)%Q) /\ with_time l /\ exists s t, created a s /\ created b t /\ (t < s)%Z).
  (** the newest of [l], the first on ties *)
  Definition newest (l : list pd) (c : pd) : Prop := exists l1 l2, l = app l1 (c :: l2) /\ (forall x, In x l1 -> newer l c x) /\ (forall x, In x l2 -> ~ newer l x c).
End Newest.

(** ** Dictionaries *)
Lemma dset_keys {V} (d : dict V) k v x : In x (map fst (dset d k v)) <-> x = k \/ In x (map fst d).
Proof.
  induction d as [|[a b] d IH]; cbn; [intuition|]. destruct (k =? a)%string eqn:E; cbn.
  - apply String.eqb_eq in E. subst. intuition.
  - rewrite IH. intuition.
Qed.
Lemma dset_nodup {V} (d : dict V) k v : NoDup (map fst d) -> NoDup (map fst (dset d k v)).
Proof.
  induction d as [|[a b] d IH]; cbn; intros H; [constructor; [intros []|constructor]|]. inversion_clear H as [|? ? H1 H2]. destruct (k =? a)%string eqn:E; cbn; constructor; auto.
  intros Hin. apply dset_keys in Hin. destruct Hin as [->|Hin]; [rewrite String.eqb_refl in E; discriminate|contradiction].
Qed.
Lemma extract_nodup maps d : forall out, NoDup (map fst out) -> NoDup (map fst (extract_into out maps d)).
Proof. unfold extract_into. induction maps as [|[a b] maps IH]; intros out H; [exact H|]. cbn [fold_left]. apply IH. cbn. destruct (dget d a); [apply dset_nodup|]; exact H. Qed.
Lemma extract_other maps d k : forall out, ~ In k (map snd maps) -> dget (extract_into out maps d) k = dget out k.
Proof.
  unfold extract_into. induction maps as [|[a b] maps IH]; intros out H; [reflexivity|]. cbn [fold_left fst snd]. rewrite IH by (intros K; apply H; right; exact K).
  destruct (dget d a); [|reflexivity]. rewrite dget_dset. destruct (k =? b)%string eqn:E; [|reflexivity]. apply String.eqb_eq in E. subst. exfalso. apply H. left. reflexivity.
Qed.
Lemma extract_get maps d a k : forall out, NoDup (map snd maps) -> In (a, k) maps -> dget (extract_into out maps d) k = match dget d a with Some v => Some v | None => dget out k end.
Proof.
  induction maps as [|[x y] maps IH]; intros out Hn Hin; [destruct Hin|]. cbn in Hn. inversion_clear Hn as [|? ? H1 H2].
  change (extract_into out ((x, y) :: maps) d) with (extract_into (match dget d x with Some v => dset out y v | None => out end) maps d).
  destruct Hin as [E|Hin].
  - injection E as -> ->. rewrite extract_other by exact H1. destruct (dget d a); [rewrite dget_dset, String.eqb_refl; reflexivity|reflexivity].
  - rewrite IH by assumption. destruct (dget d a); [reflexivity|]. destruct (dget d x); [|reflexivity]. rewrite dget_dset. destruct (k =? y)%string eqn:E; [|reflexivity]. apply String.eqb_eq in E. subst. exfalso. apply H1. apply (in_map snd) in Hin. exact Hin.
Qed.

(** ** Column names *)
Definition suffixes := ["" ; "_uncertainty"; "_lowerUncertainty"; "_upperUncertainty"; "_confidenceLevel"; "_magnitudeID"].
Lemma suffix_form s : In s suffixes -> s = "" \/ exists r, s = String "_"%char r.
Proof. cbn. intros H. repeat destruct H as [<-|H]; try (right; eexists; reflexivity); [left; reflexivity|destruct H]. Qed.
Lemma name_inj t : forall t' s s', no_underscore t = true -> no_underscore t' = true -> In s suffixes -> In s' suffixes -> (t ++ s = t' ++ s')%string -> t = t' /\ s = s'.
Proof.
  induction t as [|c t IH]; intros [|c' t'] s s' H H' Hs Hs' E; cbn in *.
  - auto.
  - apply suffix_form in Hs. destruct Hs as [->|(r & ->)]; [discriminate|]. injection E as <- _. cbn in H'. discriminate.
  - apply suffix_form in Hs'. destruct Hs' as [->|(r & ->)]; [discriminate|]. injection E as -> _. cbn in H. discriminate.
  - injection E as -> E. apply andb_true_iff in H, H'. destruct (IH t' s s' (proj2 H) (proj2 H') Hs Hs' E) as [-> ->]. auto.
Qed.
Lemma secondary_targets t : map snd (secondary_mappings (Some t)) = map (fun s => ("magnitude_" ++ t ++ s)%string) suffixes.
Proof. unfold secondary_mappings, get_realvalue, suffixes. cbn [fmt map real_values app fst snd]. assert (A : forall x y : string, (("magnitude_" ++ x) ++ y = "magnitude_" ++ x ++ y)%string) by (induction x; intros y; [reflexivity|cbn in *; specialize (IHx y); congruence]). rewrite !A. reflexivity. Qed.
Lemma prefix_inj (a b : string) : ("magnitude_" ++ a = "magnitude_" ++ b)%string -> a = b.
Proof. cbn. intros H. congruence. Qed.
Lemma secondary_nodup t : no_underscore t = true -> NoDup (map snd (secondary_mappings (Some t))).
Proof.
  intros Ht. rewrite secondary_targets. assert (N : NoDup suffixes) by (repeat constructor; cbn; intuition discriminate).
  assert (K : forall l, incl l suffixes -> NoDup l -> NoDup (map (fun s => ("magnitude_" ++ t ++ s)%string) l)).
  { induction l as [|s l IH]; intros Hi Hn; cbn [map]; constructor.
    - intros Hin. apply in_map_iff in Hin. destruct Hin as (s' & E & Hs'). apply prefix_inj in E. destruct (name_inj t t s' s Ht Ht) as [_ ->]; auto; try (apply Hi; cbn; auto; fail). inversion_clear Hn. contradiction.
    - apply IH; [intros x Hx; apply Hi; right; exact Hx|inversion_clear Hn; assumption]. }
  apply K; [apply incl_refl|exact N].
Qed.
Lemma secondary_in t a s : In (a, s) columns -> In (a, ("magnitude_" ++ t ++ s)%string) (secondary_mappings (Some t)) /\ In s suffixes.
Proof.
  intros H. assert (A : forall x y : string, (("magnitude_" ++ x) ++ y = "magnitude_" ++ x ++ y)%string) by (induction x; intros y; [reflexivity|cbn in *; specialize (IHx y); congruence]).
  unfold secondary_mappings, get_realvalue. cbn [fmt map real_values app fst snd]. rewrite !A.
  cbn [columns value_columns app In] in H. repeat destruct H as [H|H]; try (injection H as <- <-; split; [cbn [In]; tauto|cbn; tauto]). destruct H.
Qed.

(** the columns written by a list of magnitudes with distinct types *)
Lemma secondary_get mags : forall out r, extract_secondary out mags = Ok r ->
  (forall m, In m mags -> exists t, type_of m t /\ no_underscore t = true) ->
  (forall t s, no_underscore t = true -> In s suffixes -> (forall m, In m mags -> ~ type_of m t) -> dget r ("magnitude_" ++ t ++ s)%string = dget out ("magnitude_" ++ t ++ s)%string).
Proof.
  induction mags as [|m mags IH]; intros out r H Ht t s Hu Hs Hno; cbn [extract_secondary] in H; [injection H as <-; reflexivity|].
  destruct (Ht m (or_introl eq_refl)) as (tm & Tm & Um). unfold getitem in H. red in Tm. rewrite Tm in H. cbn [rbind] in H.
  rewrite (IH _ _ H (fun m' Hm' => Ht m' (or_intror Hm')) t s Hu Hs (fun m' Hm' => Hno m' (or_intror Hm'))). apply extract_other. rewrite secondary_targets.
  intros Hin. apply in_map_iff in Hin. destruct Hin as (s' & E & Hs'). apply prefix_inj in E. destruct (name_inj tm t s' s Um Hu Hs' Hs E) as [-> _]. exact (Hno m (or_introl eq_refl) Tm).
Qed.
Lemma secondary_own mags : forall out r, extract_secondary out mags = Ok r ->
  (forall m, In m mags -> exists t, type_of m t /\ no_underscore t = true) ->
  (forall l1 m l2, mags = app l1 (m :: l2) -> forall t, type_of m t -> forall m', In m' l2 -> ~ type_of m' t) ->
  forall m t a s, In m mags -> (forall m', In m' mags -> type_of m' t -> m' = m) -> type_of m t -> In (a, s) columns ->
  dget r ("magnitude_" ++ t ++ s)%string = match dget m a with Some v => Some v | None => dget out ("magnitude_" ++ t ++ s)%string end.
Proof.
  induction mags as [|x mags IH]; intros out r H Ht Hd m t a s Hin Hone Tm Has; [destruct Hin|]. cbn [extract_secondary] in H.
  destruct (Ht x (or_introl eq_refl)) as (tx & Tx & Ux). unfold getitem in H. red in Tx. rewrite Tx in H. cbn [rbind] in H. fold (type_of x tx) in Tx.
  assert (Ht' : forall m, In m mags -> exists t, type_of m t /\ no_underscore t = true) by (intros; apply Ht; right; assumption).
  destruct (secondary_in t a s Has) as [Ia Is].
  destruct (String.eqb_spec tx t) as [->|Hne].
  - assert (x = m) by (apply Hone; [left; reflexivity|exact Tx]). subst x. rewrite (secondary_get mags _ _ H Ht' t s Ux Is).
    + apply extract_get; [apply secondary_nodup; exact Ux|exact Ia].
    + intros m' Hm'. exact (Hd [] m mags eq_refl t Tm m' Hm').
  - destruct Hin as [->|Hin]; [red in Tm, Tx; congruence|]. rewrite (IH _ _ H Ht') with (m := m) (a := a); auto.
    + destruct (dget m a); [reflexivity|]. apply extract_other. rewrite secondary_targets. intros K. apply in_map_iff in K. destruct K as (s' & E & Hs'). apply prefix_inj in E.
      destruct (Ht' m Hin) as (t' & T' & U'). assert (t' = t) by (red in T', Tm; congruence). subst t'. destruct (name_inj tx t s' s Ux U' Hs' Is E) as [K _]. contradiction.
    + intros l1 y l2 E. apply (Hd (x :: l1) y l2). rewrite E. reflexivity.
    + intros m' Hm'. apply Hone. right. exact Hm'.
Qed.
Lemma secondary_nd mags : forall out r, extract_secondary out mags = Ok r -> NoDup (map fst out) -> NoDup (map fst r).
Proof. induction mags as [|m mags IH]; intros out r H Hn; cbn [extract_secondary] in H; [injection H as <-; exact Hn|]. destruct (getitem m "magnitudetype"); cbn [rbind] in H; [|discriminate]. apply (IH _ _ H). apply extract_nodup. exact Hn. Qed.

(** ** Monadic lists *)
Lemma filter_res_ok {A} (f : A -> res bool) l : forall r, filter_res f l = Ok r -> (forall x, In x l -> exists b, f x = Ok b) /\ r = filter (fun x => match f x with Ok b => b | Err _ => false end) l.
Proof.
  induction l as [|x l IH]; intros r H; cbn in H; [injection H as <-; split; [intros ? []|reflexivity]|]. destruct (f x) as [b|] eqn:E; cbn in H; [|discriminate]. destruct (filter_res f l) as [r'|] eqn:F; cbn in H; [|discriminate].
  destruct (IH r' eq_refl) as [A1 ->]. injection H as <-. split; [intros y [<-|Hy]; [eauto|apply A1; exact Hy]|]. cbn. rewrite E. reflexivity.
Qed.
Lemma map_res_ok {A B} (f : A -> res B) l : forall r, map_res f l = Ok r -> Forall2 (fun x y => f x = Ok y) l r.
Proof.
  induction l as [|x l IH]; intros r H; cbn in H; [injection H as <-; constructor|]. destruct (f x) as [y|] eqn:E; cbn in H; [|discriminate]. destruct (map_res f l) as [r'|]; cbn in H; [|discriminate]. injection H as <-. constructor; auto.
Qed.
Lemma oeqb_eq a b : oeqb a b = true <-> a = b.
Proof. destruct a, b; cbn; rewrite ?String.eqb_eq; split; congruence. Qed.
Lemma filter_filter {A} (f g : A -> bool) l : filter f (filter g l) = filter (fun x => g x && f x) l.
Proof. induction l as [|x l IH]; [reflexivity|]. cbn. destruct (g x); cbn; [destruct (f x)|]; rewrite ?IH; reflexivity. Qed.

(** ** Sorting: the head of a stable descending sort is the first maximum *)
Lemma isort_head {A} (le : A -> A -> bool) (P : A -> Prop) :
  (forall x y z, P x -> P y -> P z -> le x y = true -> le y z = true -> le x z = true) -> (forall x y, P x -> P y -> le x y = true \/ le y x = true) ->
  forall l, Forall P l -> forall h t, isort le l = h :: t -> exists l1 l2, l = app l1 (h :: l2) /\ (forall y, In y l1 -> le y h = false) /\ (forall y, In y l -> le h y = true).
Proof.
  intros Htr Hto. induction l as [|x l IH]; intros HP h t E; [discriminate|]. inversion_clear HP as [|? ? P1 P2]. cbn [isort] in E. destruct (isort le l) as [|h' t'] eqn:F.
  - assert (l = []) by (apply Permutation_nil; rewrite <- F; apply Permutation_sym, isort_perm). subst l. cbn in E. injection E as <- <-. exists [], []. split; [reflexivity|]. split; [intros ? []|]. intros y [<-|[]]. destruct (Hto x x P1 P1); assumption.
  - destruct (IH P2 h' t' eq_refl) as (l1 & l2 & El & A1 & A2). assert (Ph : P h'). { rewrite Forall_forall in P2. apply P2. rewrite El. apply in_app_iff. right; left; reflexivity. }
    cbn in E. destruct (le x h') eqn:G; injection E as <- <-.
    + exists [], l. split; [reflexivity|]. split; [intros ? []|]. rewrite Forall_forall in P2. intros y [<-|Hy]; [destruct (Hto x x P1 P1); assumption|]. apply (Htr x h' y); auto.
    + exists (x :: l1), l2. split; [rewrite El; reflexivity|]. split; [intros y [<-|Hy]; auto|]. intros y [<-|Hy]; [destruct (Hto h' x Ph P1); congruence|auto].
Qed.

Section Select.
  Context (tf : option string -> res Q) (tm : option string -> res Z).
  Definition shape (k1 k2 : bool) (x : (option Q * option Z) * pd) : Prop := sort_key tf tm k1 k2 (snd x) = Ok (fst x).
  Lemma sort_key_ok k1 k2 m v t : sort_key tf tm k1 k2 m = Ok (v, t) ->
    (if k1 then exists q, v = Some q /\ version tf m q else v = None) /\ (if k2 then exists z, t = Some z /\ created tm m z else t = None).
  Proof.
    unfold sort_key, getitem, version, created, vkey, tkey. destruct k1.
    - destruct (dget m "magnitudecreationInfoversion") as [x|]; cbn [rbind]; [|discriminate]. destruct (tf x) eqn:E; cbn [rbind]; [|discriminate]. destruct k2.
      + destruct (dget m "magnitudecreationInfocreationTime") as [y|]; cbn [rbind]; [|discriminate]. destruct (tm y) eqn:F; cbn [rbind]; [|discriminate]. intros [= <- <-]. split; eauto.
      + cbn [rbind]. intros [= <- <-]. split; eauto.
    - cbn [rbind]. destruct k2.
      + destruct (dget m "magnitudecreationInfocreationTime") as [y|]; cbn [rbind]; [|discriminate]. destruct (tm y) eqn:F; cbn [rbind]; [|discriminate]. intros [= <- <-]. split; eauto.
      + cbn [rbind]. intros [= <- <-]. split; reflexivity.
  Qed.
  Lemma version_fun m q q' : version tf m q -> version tf m q' -> q = q'.
  Proof. intros (x & A & B) (y & C & D). rewrite A in C. injection C as <-. congruence. Qed.
  Lemma created_fun m q q' : created tm m q -> created tm m q' -> q = q'.
  Proof. intros (x & A & B) (y & C & D). rewrite A in C. injection C as <-. congruence. Qed.
  Definition ge (a b : (option Q * option Z) * pd) : bool := negb (key_lt (fst a) (fst b)).
  Lemma key_lt_cases k1 k2 a b : shape k1 k2 a -> shape k1 k2 b -> (key_lt (fst a) (fst b) = true <->
    (k1 = true /\ exists p q, version tf (snd b) p /\ version tf (snd a) q /\ (q < p)%Q) \/
    ((k1 = true -> exists p q, version tf (snd b) p /\ version tf (snd a) q /\ (p == q)%Q) /\ k2 = true /\ exists s t, created tm (snd b) s /\ created tm (snd a) t /\ (t < s)%Z)).
  Proof.
    destruct a as [[va ta] ma], b as [[vb tb] mb]. unfold shape. cbn [fst snd]. intros Ha Hb. apply sort_key_ok in Ha, Hb. unfold key_lt. cbn [fst snd].
    assert (T : forall (P : Prop), (match ta, tb with Some s, Some t => (s <? t)%Z | _, _ => false end = true) <-> (k2 = true /\ exists s t, created tm mb s /\ created tm ma t /\ (t < s)%Z)).
    { intros _. destruct Ha as [_ Ha], Hb as [_ Hb]. destruct k2.
      - destruct Ha as (s & -> & Hs), Hb as (t & -> & Ht). rewrite Z.ltb_lt. split; [intros H; split; [reflexivity|]; exists t, s; auto|]. intros (_ & s' & t' & C1 & C2 & L). rewrite (created_fun _ _ _ Hs C2), (created_fun _ _ _ Ht C1). exact L.
      - subst. split; [discriminate|intros (K & _); discriminate]. }
    destruct Ha as [Ha _], Hb as [Hb _]. destruct k1.
    - destruct Ha as (p & -> & Hp), Hb as (q & -> & Hq). destruct (Qeq_bool p q) eqn:E.
      + apply Qeq_bool_iff in E. rewrite (T True). split; [intros H; right; split; [intros _; exists q, p; repeat split; auto; symmetry; exact E|exact H]|].
        intros [(_ & p' & q' & V1 & V2 & L)|(_ & H)]; [|exact H]. rewrite <- (version_fun _ _ _ Hq V1), <- (version_fun _ _ _ Hp V2) in L. rewrite E in L. destruct (Qlt_irrefl _ L).
      + apply Qeq_bool_neq in E. rewrite negb_true_iff. split.
        * intros H. left. split; [reflexivity|]. exists q, p. repeat split; auto. apply Qnot_le_lt. intros L. apply Qle_bool_iff in L. congruence.
        * intros [(_ & p' & q' & V1 & V2 & L)|(H & _)].
          -- rewrite <- (version_fun _ _ _ Hq V1), <- (version_fun _ _ _ Hp V2) in L. destruct (Qle_bool q p) eqn:F; [|reflexivity]. apply Qle_bool_iff in F. exfalso. apply (Qlt_not_le _ _ L F).
          -- destruct (H eq_refl) as (p' & q' & V1 & V2 & L). rewrite <- (version_fun _ _ _ Hq V1), <- (version_fun _ _ _ Hp V2) in L. exfalso. apply E. symmetry. exact L.
    - subst. rewrite (T True). split; [intros H; right; split; [discriminate|exact H]|]. intros [(K & _)|(_ & H)]; [discriminate|exact H].
  Qed.
  Lemma shapes k1 k2 a : shape k1 k2 a -> exists v t, fst a = (v, t) /\ (if k1 then exists q, v = Some q else v = None) /\ (if k2 then exists z, t = Some z else t = None).
  Proof. destruct a as [[v t] m]. unfold shape. cbn. intros H. apply sort_key_ok in H. destruct H as [H1 H2]. exists v, t. split; [reflexivity|]. split; [destruct k1; [destruct H1 as (q & -> & _); eauto|exact H1]|destruct k2; [destruct H2 as (q & -> & _); eauto|exact H2]]. Qed.
  Lemma ge_total k1 k2 a b : shape k1 k2 a -> shape k1 k2 b -> ge a b = true \/ ge b a = true.
  Proof.
    intros Ha Hb. unfold ge. apply shapes in Ha, Hb. destruct Ha as (va & ta & -> & Va & Ta), Hb as (vb & tb & -> & Vb & Tb). rewrite !negb_true_iff. unfold key_lt. cbn [fst snd].
    assert (T : match ta, tb with Some s, Some t => (s <? t)%Z | _, _ => false end = false \/ match tb, ta with Some s, Some t => (s <? t)%Z | _, _ => false end = false).
    { destruct ta as [s|], tb as [t|]; auto. rewrite !Z.ltb_ge. lia. }
    destruct va as [p|], vb as [q|]; auto. destruct (Qeq_bool p q) eqn:E.
    - apply Qeq_bool_iff in E. rewrite (proj2 (Qeq_bool_iff q p)) by (symmetry; exact E). exact T.
    - destruct (Qeq_bool q p) eqn:F; [apply Qeq_bool_iff in F; apply Qeq_bool_neq in E; exfalso; apply E; symmetry; exact F|].
      rewrite !negb_false_iff, !Qle_bool_iff. destruct (Qlt_le_dec p q) as [L|L]; [right; apply Qlt_le_weak; exact L|left; exact L].
  Qed.
  Lemma ge_trans k1 k2 a b c : shape k1 k2 a -> shape k1 k2 b -> shape k1 k2 c -> ge a b = true -> ge b c = true -> ge a c = true.
  Proof.
    intros Ha Hb Hc. unfold ge. apply shapes in Ha, Hb, Hc. destruct Ha as (va & ta & -> & Va & Ta), Hb as (vb & tb & -> & Vb & Tb), Hc as (vc & tc & -> & Vc & Tc). rewrite !negb_true_iff. unfold key_lt. cbn [fst snd].
    assert (T : match ta, tb with Some s, Some t => (s <? t)%Z | _, _ => false end = false -> match tb, tc with Some s, Some t => (s <? t)%Z | _, _ => false end = false -> match ta, tc with Some s, Some t => (s <? t)%Z | _, _ => false end = false).
    { destruct k2; [destruct Ta as (s & ->), Tb as (t & ->), Tc as (u & ->); rewrite !Z.ltb_ge; lia|subst; auto]. }
    destruct k1; [|subst; exact T]. destruct Va as (p & ->), Vb as (q & ->), Vc as (r & ->).
    destruct (Qeq_bool p q) eqn:E1, (Qeq_bool q r) eqn:E2; rewrite ?negb_false_iff, ?Qle_bool_iff.
    - apply Qeq_bool_iff in E1, E2. rewrite (proj2 (Qeq_bool_iff p r)) by (rewrite E1; exact E2). exact T.
    - apply Qeq_bool_iff in E1. apply Qeq_bool_neq in E2. destruct (Qeq_bool p r) eqn:E3; [apply Qeq_bool_iff in E3; exfalso; apply E2; rewrite <- E1; exact E3|]. intros _ L. rewrite negb_false_iff, Qle_bool_iff, E1. exact L.
    - apply Qeq_bool_neq in E1. apply Qeq_bool_iff in E2. destruct (Qeq_bool p r) eqn:E3; [apply Qeq_bool_iff in E3; exfalso; apply E1; rewrite E2; exact E3|]. intros L _. rewrite negb_false_iff, Qle_bool_iff, <- E2. exact L.
    - apply Qeq_bool_neq in E1, E2. intros L1 L2. destruct (Qeq_bool p r) eqn:E3.
      + apply Qeq_bool_iff in E3. exfalso. apply E1. apply Qle_antisym; [rewrite E3; exact L2|exact L1].
      + rewrite negb_false_iff, Qle_bool_iff. apply Qle_trans with q; assumption.
  Qed.
  (** one type *)
  Definition typed (t : option string) (m : pd) : bool := match dget m "magnitudetype" with Some t' => oeqb t' t | None => false end.
  Lemma pick_newest mags mt c : pick_one tf tm mags mt = Ok c -> newest tf tm (filter (typed mt) mags) c.
  Proof.
    unfold pick_one. intros H. destruct (filter_res _ mags) as [ot|] eqn:E; cbn [rbind] in H; [|discriminate]. apply filter_res_ok in E. destruct E as [_ E].
    assert (Eo : ot = filter (typed mt) mags). { rewrite E. apply filter_ext. intros m. unfold getitem, typed. destruct (dget m "magnitudetype"); reflexivity. } clear E. rewrite <- Eo. clear Eo mags.
    set (k1 := forallb (fun m => has m vkey) ot) in H. set (k2 := forallb (fun m => has m tkey) ot) in H.
    assert (K1 : k1 = true <-> with_version ot). { unfold k1, with_version, has, vkey. rewrite forallb_forall. split; intros K m Hm; specialize (K m Hm); destruct (dget m "magnitudecreationInfoversion"); congruence. }
    assert (K2 : k2 = true <-> with_time ot). { unfold k2, with_time, has, tkey. rewrite forallb_forall. split; intros K m Hm; specialize (K m Hm); destruct (dget m "magnitudecreationInfocreationTime"); congruence. }
    clearbody k1 k2.
    assert (G : forall r, rbind (map_res (fun m => let? k := sort_key tf tm k1 k2 m in Ok (k, m)) ot) (fun keyed => match sort_desc keyed with [] => Err IndexError | (_, m) :: _ => Ok m end) = Ok r -> newest tf tm ot r).
    { clear H c. intros c H. destruct (map_res _ ot) as [keyed|] eqn:E; cbn [rbind] in H; [|discriminate]. apply map_res_ok in E.
      assert (HK : map snd keyed = ot /\ Forall (shape k1 k2) keyed).
      { clear -E. revert E. generalize ot keyed. intros o k E. induction E as [|m x l l' Hx _ [IH1 IH2]]; [split; [reflexivity|constructor]|]. destruct (sort_key tf tm k1 k2 m) as [k|] eqn:F; cbn in Hx; [|discriminate]. injection Hx as <-. split; [cbn; rewrite IH1; reflexivity|constructor; [exact F|exact IH2]]. }
      destruct HK as [Hs Hsh]. unfold sort_desc in H. destruct (isort (fun a b => negb (key_lt (fst a) (fst b))) keyed) as [|[kc c'] tl] eqn:F; [discriminate|]. injection H as ->.
      destruct (isort_head ge (shape k1 k2)) with (l := keyed) (h := (kc, c)) (t := tl) as (l1 & l2 & El & A1 & A2); [intros x y z; apply ge_trans|intros x y; apply ge_total|exact Hsh|exact F|].
      exists (map snd l1), (map snd l2). rewrite <- Hs, El, map_app. split; [reflexivity|]. rewrite Forall_forall in Hsh.
      assert (Hc : shape k1 k2 (kc, c)) by (apply Hsh; rewrite El; apply in_app_iff; right; left; reflexivity).
      assert (EQ : (map snd l1 ++ map snd ((kc, c) :: l2))%list = ot) by (rewrite <- Hs, El, map_app; reflexivity). rewrite EQ. split.
      - intros x Hx. apply in_map_iff in Hx. destruct Hx as (y & <- & Hy). assert (Sy : shape k1 k2 y) by (apply Hsh; rewrite El; apply in_app_iff; left; exact Hy).
        specialize (A1 y Hy). unfold ge in A1. apply negb_false_iff in A1. apply (key_lt_cases k1 k2 y (kc, c) Sy Hc) in A1. cbn [snd] in A1. unfold newer. rewrite <- K1, <- K2. exact A1.
      - intros x Hx Hn. apply in_map_iff in Hx. destruct Hx as (y & <- & Hy). assert (Sy : shape k1 k2 y) by (apply Hsh; rewrite El; apply in_app_iff; right; right; exact Hy).
        assert (A : ge (kc, c) y = true) by (apply A2; rewrite El; apply in_app_iff; right; right; exact Hy). unfold ge in A. apply negb_true_iff in A. unfold newer in Hn. rewrite <- K1, <- K2 in Hn.
        assert (key_lt (fst (kc, c)) (fst y) = true); [|congruence]. apply (key_lt_cases k1 k2 (kc, c) y Hc Sy). cbn [snd]. exact Hn. }
    destruct ot as [|m [|m' ot']]; [apply G; exact H| |apply G; exact H]. injection H as <-. exists [], []. split; [reflexivity|]. split; intros ? [].
  Qed.
End Select.

(** ** The claims *)
Definition has_type (t : string) (m : pd) : bool := match dget m "magnitudetype" with Some (Some t') => (t' =? t)%string | _ => false end.
Definition has_id (id : option string) (m : pd) : bool := match dget m "magnitudepublicID" with Some i => oeqb id i | None => false end.
(** the magnitudes considered for type t: all of this type, but only the preferred one for its own type *)
Definition candidates (pref : pd) (id : option string) (mags : list pd) (t : string) : list pd :=
  filter (fun m => has_type t m && (negb (has_type t pref) || has_id id m)) mags.

Lemma find_id_ok key l id : forall f, find_id key l id = Ok f ->
  match f with
  | Some m => first_with (fun x => dget x key = Some id) l m
  | None => forall m, In m l -> dget m key <> Some id
  end.
Proof.
  induction l as [|m l IH]; intros f H; cbn in H; [injection H as <-; intros ? []|]. unfold getitem in H. destruct (dget m key) as [i|] eqn:E; cbn in H; [|discriminate].
  destruct (oeqb id i) eqn:F.
  - injection H as <-. apply oeqb_eq in F. subst i. exists [], l. split; [reflexivity|]. split; [exact E|intros ? []].
  - assert (Hm : dget m key <> Some id) by (intros K; rewrite E in K; injection K as ->; rewrite (proj2 (oeqb_eq id id) eq_refl) in F; discriminate).
    specialize (IH f H). destruct f as [m'|].
    + destruct IH as (l1 & l2 & -> & A1 & A2). exists (m :: l1), l2. split; [reflexivity|]. split; [exact A1|]. intros y [<-|Hy]; auto.
    + intros y [<-|Hy]; auto.
Qed.
Lemma distinct_in l x : In x (distinct l) <-> In x l.
Proof.
  induction l as [|y l IH]; cbn; [tauto|]. destruct (existsb (oeqb y) l) eqn:E; cbn; rewrite IH; [|tauto]. apply existsb_exists in E. destruct E as (z & Hz & E). apply oeqb_eq in E. subst z. intuition congruence.
Qed.
Lemma distinct_nodup l : NoDup (distinct l).
Proof. induction l as [|y l IH]; cbn; [constructor|]. destruct (existsb (oeqb y) l) eqn:E; [exact IH|]. constructor; [|exact IH]. rewrite distinct_in. intros Hin. assert (existsb (oeqb y) l = true) by (apply existsb_exists; exists y; split; [exact Hin|apply oeqb_eq; reflexivity]). congruence. Qed.
Lemma distinct_len l : (List.length (distinct l) <= List.length l)%nat.
Proof. induction l as [|y l IH]; cbn; [lia|]. destruct (existsb (oeqb y) l); cbn; lia. Qed.
Lemma distinct_full l : List.length (distinct l) = List.length l -> distinct l = l.
Proof. induction l as [|y l IH]; cbn; [reflexivity|]. pose proof (distinct_len l). destruct (existsb (oeqb y) l); cbn; intros H1; [lia|]. rewrite IH by lia. reflexivity. Qed.

Lemma F2_length {A B} (R : A -> B -> Prop) l l' : Forall2 R l l' -> List.length l = List.length l'.
Proof. induction 1; cbn; congruence. Qed.

Section Claims.
  Context (tf : option string -> res Q) (tm : option string -> res Z) (so : list (option string) -> list (option string)).
  Hypothesis Hso : forall l, NoDup l -> Permutation (so l) l.

  Lemma select_secondary_ok kept sel : select_secondary_magnitudes tf tm so kept = Ok sel ->
    exists ts, NoDup ts /\ (forall t, In t ts <-> exists m, In m kept /\ dget m "magnitudetype" = Some t) /\ Forall2 (fun t c => newest tf tm (filter (typed t) kept) c) ts sel.
  Proof.
    unfold select_secondary_magnitudes. intros H. destruct (map_res _ kept) as [types|] eqn:E; cbn [rbind] in H; [|discriminate]. apply map_res_ok in E.
    assert (Hin : forall t, In t types <-> exists m, In m kept /\ dget m "magnitudetype" = Some t).
    { clear -E. intros t. induction E as [|m x l l' Hx _ IH]; [split; [intros []|intros (? & [] & _)]|]. unfold getitem in Hx. destruct (dget m "magnitudetype") as [x'|] eqn:F; [|discriminate]. injection Hx as ->. cbn [In]. rewrite IH. split.
      - intros [<-|(m' & A & B)]; [exists m; auto|exists m'; auto].
      - intros (m' & [<-|A] & B); [left; congruence|right; eauto]. }
    destruct (_ =? _) eqn:L.
    - injection H as <-. apply Nat.eqb_eq in L. assert (Ll : List.length types = List.length kept) by (symmetry; eapply F2_length; exact E). rewrite <- Ll in L. apply distinct_full in L.
      pose proof (distinct_nodup types) as ND. rewrite L in ND. exists types. split; [exact ND|]. split; [exact Hin|].
      clear Hin L Ll. assert (K : forall l1 l2, Forall2 (fun x y => getitem x "magnitudetype" = Ok y) l1 l2 -> NoDup l2 -> forall pre : list pd, (forall x t, In x pre -> In t l2 -> dget x "magnitudetype" <> Some t) -> Forall2 (fun t c => newest tf tm (filter (typed t) (pre ++ l1)) c) l2 l1).
      { clear. induction 1 as [|m t l1 l2 Hm HF IH]; intros ND pre Hpre; [constructor|]. inversion_clear ND as [|? ? N1 N2]. unfold getitem in Hm. destruct (dget m "magnitudetype") as [t'|] eqn:F; [|discriminate]. injection Hm as ->.
        assert (Hl1 : forall x, In x l1 -> dget x "magnitudetype" <> Some t).
        { intros x Hx K. apply N1. clear -HF Hx K. induction HF as [|a b l l' Hab _ IHF]; [destruct Hx|]. destruct Hx as [->|Hx]; [left; unfold getitem in Hab; rewrite K in Hab; congruence|right; auto]. }
        constructor.
        - assert (filter (typed t) (pre ++ m :: l1) = [m]).
          { assert (Z : forall l : list pd, (forall x, In x l -> dget x "magnitudetype" <> Some t) -> filter (typed t) l = []).
            { intros l Hl. induction l as [|x l IHl]; [reflexivity|]. cbn. unfold typed at 1. destruct (dget x "magnitudetype") as [tx|] eqn:G; [|apply IHl; intros; apply Hl; right; assumption]. destruct (oeqb tx t) eqn:O; [|apply IHl; intros; apply Hl; right; assumption]. apply oeqb_eq in O. subst. exfalso. apply (Hl x (or_introl eq_refl) G). }
            rewrite filter_app, (Z pre) by (intros x Hx; apply Hpre; [exact Hx|left; reflexivity]). cbn. unfold typed at 1. rewrite F, (proj2 (oeqb_eq t t) eq_refl), (Z l1) by exact Hl1. reflexivity. }
          rewrite H. exists [], []. split; [reflexivity|]. split; intros ? [].
        - replace (pre ++ m :: l1)%list with ((pre ++ [m]) ++ l1)%list by (rewrite <- app_assoc; reflexivity). apply IH; [exact N2|]. intros x t0 Hx Ht0 K. apply in_app_iff in Hx. destruct Hx as [Hx|[<-|[]]]; [exact (Hpre x t0 Hx (or_intror Ht0) K)|]. rewrite F in K. injection K as ->. contradiction. }
      exact (K kept types E ND [] ltac:(intros ? ? [])).
    - exists (so (distinct types)). pose proof (Hso (distinct types) (distinct_nodup types)) as P. split; [eapply Permutation_NoDup; [apply Permutation_sym; exact P|apply distinct_nodup]|]. split.
      + intros t. rewrite <- Hin, <- (distinct_in types). split; apply Permutation_in; [exact P|apply Permutation_sym; exact P].
      + apply map_res_ok in H. clear -H. induction H as [|t c l l' Hc _ IH]; constructor; [apply pick_newest; exact Hc|exact IH].
  Qed.
  Lemma newest_in l c : newest tf tm l c -> In c l.
  Proof. intros (l1 & l2 & -> & _). apply in_app_iff. right; left; reflexivity. Qed.

  Context (ia iq : bool) (ev : pd) (origins mags : list pd) (r : pd).
  Hypothesis Hparse : parse_to_dict tf tm so ia iq ev origins mags = Ok r.
  (** values of type are strings (None does not occur in parsed documents), type names are tidy *)
  Hypothesis Hstr : forall m, In m mags -> dget m "magnitudetype" <> Some None.
  Hypothesis Htidy : forall m t, In m mags -> type_of m t -> tidy t.
  Notation id := (get_default ev "preferredMagnitudeID").

  Lemma parse_parts : exists po pm kept sel sec,
    (first_with (fun x => id_of x id) mags pm \/ (pm = dummy_magnitude /\ forall m, In m mags -> ~ id_of m id)) /\
    (forall m, In m mags -> exists t, type_of m t) /\
    (forall t, filter (has_type t) kept = candidates pm id mags t) /\ incl kept mags /\
    (if ia then kept = [] /\ sel = [] \/ select_secondary_magnitudes tf tm so kept = Ok sel else sel = []) /\
    extract_secondary [] sel = Ok sec /\
    r = dupdate (dupdate (dupdate (map (fun kv => (snd kv, get_default ev (fst kv))) event_mappings) (extract_origin po iq)) (extract_magnitude pm)) sec.
  Proof.
    clear Hso Htidy. unfold parse_to_dict in Hparse. destruct (select_origin_by_id origins (get_default ev "preferredOriginID")) as [[po ro]|]; cbn [rbind] in Hparse; [|discriminate].
    destruct (select_magnitude_by_id mags id) as [[pm kept]|] eqn:S; cbn [rbind] in Hparse; [|discriminate].
    destruct (match kept with [] => Ok [] | _ => if ia then select_secondary_magnitudes tf tm so kept else Ok [] end) as [sel|] eqn:Q; cbn [rbind] in Hparse; [|discriminate].
    destruct (extract_secondary [] sel) as [sec|] eqn:X; cbn [rbind] in Hparse; [|discriminate]. injection Hparse as <-.
    exists po, pm, kept, sel, sec. unfold select_magnitude_by_id in S. destruct (find_id "magnitudepublicID" mags id) as [found|] eqn:F; cbn [rbind] in S; [|discriminate]. apply find_id_ok in F.
    match type of S with context [filter_res ?f mags] => set (keep := f) in S end. destruct (filter_res keep mags) as [kp|] eqn:G; cbn [rbind] in S; [|discriminate].
    apply (f_equal (fun x => match x with Ok y => y | Err _ => (pm, kept) end)) in S. cbv beta iota in S. apply pair_equal_spec in S. destruct S as [Ep Ek]. subst kp.
    apply filter_res_ok in G. destruct G as [G1 G2].
    assert (Hty : forall m, In m mags -> exists t, type_of m t).
    { intros m Hm. destruct (G1 m Hm) as (b & Hb). unfold keep, getitem in Hb. unfold type_of. specialize (Hstr m Hm). destruct (dget m "magnitudetype") as [[t|]|]; [eauto|congruence|discriminate]. }
    split; [|split; [exact Hty|]].
    - destruct found as [m|]; subst pm; [left; exact F|right; split; [reflexivity|exact F]].
    - split; [|split; [|split; [|split; [exact X|reflexivity]]]].
      + intros t. subst kept. rewrite filter_filter. unfold candidates. apply filter_ext_in. intros m Hm. destruct (G1 m Hm) as (b & Hb). destruct (Hty m Hm) as (t1 & T1). unfold keep, getitem in *. rewrite Ep in Hb |- *. red in T1. unfold has_type. rewrite T1 in Hb |- *. cbn [rbind] in *.
        destruct (dget pm "magnitudetype") as [pt|] eqn:P; cbn [rbind] in *; [|discriminate]. destruct (oeqb (Some t1) pt) eqn:O; cbn [negb] in *.
        * apply oeqb_eq in O. subst pt. unfold has_id. destruct (dget m "magnitudepublicID") as [i|]; cbn [rbind] in *; [|discriminate]. destruct (t1 =? t)%string; cbn [negb orb andb]; [rewrite andb_true_r; reflexivity|rewrite andb_false_r; reflexivity].
        * destruct (t1 =? t)%string eqn:T; cbn [andb]; [|reflexivity]. apply String.eqb_eq in T. subst t1. destruct pt as [pt|]; [|reflexivity]. cbn [oeqb] in O. rewrite String.eqb_sym in O. rewrite O. reflexivity.
      + subst kept. intros m Hm. apply filter_In in Hm. tauto.
      + destruct kept as [|k0 kept0]; [injection Q as <-; destruct ia; auto|]. destruct ia; [right; exact Q|injection Q as <-; reflexivity].
  Qed.
  (** keys of the secondary columns *)
  Lemma secondary_keys l : forall out x k, extract_secondary out l = Ok x -> (forall m, In m l -> exists t, type_of m t) -> dget x k <> None -> dget out k <> None \/ exists m t s, In m l /\ type_of m t /\ In s suffixes /\ k = ("magnitude_" ++ t ++ s)%string.
  Proof.
    clear. induction l as [|m l IH]; intros out x k H Hl Hk; cbn [extract_secondary] in H; [injection H as <-; left; exact Hk|].
    destruct (Hl m (or_introl eq_refl)) as (t & T). unfold getitem in H. red in T. rewrite T in H. cbn [rbind] in H.
    destruct (IH _ _ k H (fun m' Hm' => Hl m' (or_intror Hm')) Hk) as [K|(m' & t' & s' & A & B)]; [|right; exists m', t', s'; split; [right; exact A|exact B]].
    destruct (in_dec String.string_dec k (map snd (secondary_mappings (Some t)))) as [I|I].
    - right. rewrite secondary_targets in I. apply in_map_iff in I. destruct I as (s & <- & Hs). exists m, t, s. split; [left; reflexivity|]. split; [exact T|]. split; [exact Hs|reflexivity].
    - left. rewrite extract_other in K by exact I. exact K.
  Qed.
  Lemma main_keys k pm po : dget (dupdate (dupdate (map (fun kv => (snd kv, get_default ev (fst kv))) event_mappings) (extract_origin po iq)) (extract_magnitude pm)) k =
    match dget (extract_magnitude pm) k with Some v => Some v | None => match dget (extract_origin po iq) k with Some v => Some v | None => dget (map (fun kv => (snd kv, get_default ev (fst kv))) event_mappings) k end end.
  Proof.
    clear. rewrite dget_dupdate; [|apply extract_nodup; constructor]. destruct (dget (extract_magnitude pm) k); [reflexivity|]. apply dget_dupdate. unfold extract_origin. destruct iq; repeat apply extract_nodup; constructor.
  Qed.
  Lemma origin_no_mag po s : dget (extract_origin po iq) ("magnitude" ++ s)%string = None.
  Proof.
    clear. unfold extract_origin. assert (A : ~ In ("magnitude" ++ s)%string (map snd origin_mappings)) by (cbn; intuition discriminate). assert (B : ~ In ("magnitude" ++ s)%string (map snd quality_mappings)) by (cbn; intuition discriminate).
    destruct iq; rewrite ?extract_other by assumption; reflexivity.
  Qed.
  Lemma event_no_mag s : dget (map (fun kv => (snd kv, get_default ev (fst kv))) event_mappings : pd) ("magnitude" ++ s)%string = None.
  Proof. clear. cbn. reflexivity. Qed.
  Lemma mag_no_secondary pm t s : tidy t -> In s suffixes -> dget (extract_magnitude pm) ("magnitude_" ++ t ++ s)%string = None.
  Proof.
    clear. intros [U N] Hs. unfold extract_magnitude. rewrite extract_other; [reflexivity|]. cbn [map magnitude_mappings get_realvalue real_values app fst snd]. cbn [append].
    assert (K : forall t', In t' ["type"; "uncertainty"; "lowerUncertainty"; "upperUncertainty"; "confidenceLevel"] -> (t ++ s)%string <> t').
    { intros t' Ht' E. assert (E' : (t ++ s = t' ++ "")%string). { rewrite E. clear. induction t' as [|c t' IH]; [reflexivity|]. cbn. rewrite <- IH. reflexivity. }
      assert (U' : no_underscore t' = true) by (cbn in Ht'; repeat destruct Ht' as [<-|Ht']; try reflexivity; destruct Ht').
      destruct (name_inj t t' s "" U U' Hs (or_introl eq_refl) E') as [-> _]. contradiction. }
    cbn [In]. intros H. repeat destruct H as [H|H]; try discriminate H; try exact H.
    all: injection H as H; symmetry in H; revert H; apply K; cbn; tauto.
  Qed.

  (** the preferred magnitude: the first one with the preferred id *)
  Lemma preferred_ok : forall k c, In (k, c) (("magnitudetype", "magnitude_type") :: ("magnitudepublicID", "magnitudeID") :: map (fun ks => (fst ks, ("magnitude" ++ snd ks)%string)) value_columns) ->
    (forall p, first_with (fun x => id_of x id) mags p -> dget r c = dget p k) /\
    ((forall m, In m mags -> ~ id_of m id) -> dget r c = dget dummy_magnitude k).
  Proof.
    intros k c Hkc. destruct parse_parts as (po & pm & kept & sel & sec & HP & Hty & Hc & Hi & Hsel & HX & ->).
    assert (Hsel_in : incl sel mags).
    { destruct ia; [destruct Hsel as [[_ ->]|Hsel]; [intros ? []|]|subst; intros ? []]. apply select_secondary_ok in Hsel. destruct Hsel as (ts & _ & _ & HF). intros m Hm. apply Hi. clear -HF Hm. induction HF as [|t x l l' Hx _ IH]; [destruct Hm|]. destruct Hm as [->|Hm]; [|auto]. apply newest_in in Hx. apply filter_In in Hx. tauto. }
    assert (Hcol : exists s, c = ("magnitude" ++ s)%string).
    { cbn [value_columns map fst snd In] in Hkc. destruct Hkc as [Hkc|[Hkc|[Hkc|[Hkc|[Hkc|[Hkc|[Hkc|[]]]]]]]]; injection Hkc as <- <-; [exists "_type"|exists "ID"|eexists..]; reflexivity. }
    assert (Hmain : forall p, dget (dupdate (dupdate (dupdate (map (fun kv => (snd kv, get_default ev (fst kv))) event_mappings) (extract_origin po iq)) (extract_magnitude p)) sec) c = dget p k).
    { intros p. rewrite dget_dupdate by (eapply secondary_nd; [exact HX|constructor]). destruct (dget sec c) as [v|] eqn:D.
      - exfalso. destruct (secondary_keys sel [] sec c HX (fun m Hm => Hty m (Hsel_in m Hm))) as [K|(m & t & s & A & B & Hs & E)]; [rewrite D; discriminate|cbn in K; congruence|].
        destruct (Htidy m t (Hsel_in m A) B) as [U N].
        assert (K : forall t', In t' ["type"; "uncertainty"; "lowerUncertainty"; "upperUncertainty"; "confidenceLevel"] -> (t ++ s)%string <> t').
        { intros t' Ht' E1. assert (E' : (t ++ s = t' ++ "")%string). { rewrite E1. clear. induction t' as [|x t' IH]; [reflexivity|]. cbn. rewrite <- IH. reflexivity. }
          assert (U' : no_underscore t' = true) by (cbn in Ht'; repeat destruct Ht' as [<-|Ht']; try reflexivity; destruct Ht').
          destruct (name_inj t t' s "" U U' Hs (or_introl eq_refl) E') as [-> _]. contradiction. }
        cbn [value_columns map fst snd In append] in Hkc. repeat destruct Hkc as [Hkc|Hkc]; try exact Hkc.
        all: injection Hkc as _ <-; cbn [append] in E; try discriminate E; injection E as E; symmetry in E; revert E; apply K; cbn; tauto.
      - rewrite main_keys. assert (M : dget (extract_magnitude p) c = match dget p k with Some v => Some v | None => None end).
        { unfold extract_magnitude. rewrite (extract_get magnitude_mappings p k c); [destruct (dget p k); reflexivity|repeat constructor; cbn; intuition discriminate|].
          cbn [value_columns map fst snd In append] in Hkc. cbn. intuition. }
        rewrite M. destruct Hcol as (s & ->). rewrite origin_no_mag, event_no_mag. destruct (dget p k); reflexivity. }
    rewrite Hmain. split.
    - intros p Hp. destruct HP as [HP|[-> HP]]; [|exfalso; destruct Hp as (l1 & l2 & -> & Hp & _); apply (HP p); [apply in_app_iff; right; left; reflexivity|exact Hp]].
      assert (p = pm); [|congruence]. destruct HP as (a1 & a2 & E1 & P1 & N1), Hp as (b1 & b2 & E2 & P2 & N2). rewrite E1 in E2. clear -E2 P1 P2 N1 N2. revert b1 E2 N2. induction a1 as [|x a1 IH]; intros [|y b1] E N2; cbn in *; injection E as E0 E.
      + congruence.
      + subst y. exfalso. exact (N2 pm (or_introl eq_refl) P1).
      + subst x. exfalso. exact (N1 p (or_introl eq_refl) P2).
      + apply (IH (fun z Hz => N1 z (or_intror Hz)) b1 E (fun z Hz => N2 z (or_intror Hz))).
    - intros Hno. destruct HP as [(l1 & l2 & E & Hp & _)|[-> _]]; [|reflexivity]. exfalso. apply (Hno pm); [rewrite E; apply in_app_iff; right; left; reflexivity|exact Hp].
  Qed.
  (** the columns of the other magnitudes *)
  Lemma secondary_ok : forall t, tidy t -> exists pm,
    (first_with (fun x => id_of x id) mags pm \/ (pm = dummy_magnitude /\ forall m, In m mags -> ~ id_of m id)) /\
    ((exists m, In m (candidates pm id mags t)) -> ia = true -> exists c, newest tf tm (candidates pm id mags t) c /\ forall k s, In (k, s) columns -> dget r ("magnitude_" ++ t ++ s)%string = dget c k) /\
    ((forall m, In m mags -> ~ type_of m t) \/ ia = false -> forall k s, In (k, s) columns -> dget r ("magnitude_" ++ t ++ s)%string = None).
  Proof.
    intros t Ht. destruct parse_parts as (po & pm & kept & sel & sec & HP & Hty & Hc & Hi & Hsel & HX & ->). exists pm. split; [exact HP|].
    assert (Hget : forall s, In s suffixes -> dget (dupdate (dupdate (dupdate (map (fun kv => (snd kv, get_default ev (fst kv))) event_mappings) (extract_origin po iq)) (extract_magnitude pm)) sec) ("magnitude_" ++ t ++ s)%string = dget sec ("magnitude_" ++ t ++ s)%string).
    { intros s Hs. rewrite dget_dupdate by (eapply secondary_nd; [exact HX|constructor]). destruct (dget sec ("magnitude_" ++ t ++ s)%string); [reflexivity|]. rewrite main_keys, mag_no_secondary by assumption.
      change ("magnitude_" ++ t ++ s)%string with ("magnitude" ++ ("_" ++ t ++ s))%string. rewrite origin_no_mag, event_no_mag. reflexivity. }
    split.
    - intros (m0 & Hm0) Hia. rewrite Hia in Hsel. rewrite <- Hc in Hm0. apply filter_In in Hm0. destruct Hm0 as [Hm0 Htm0].
      destruct Hsel as [[-> _]|Hsel]; [destruct Hm0|]. destruct (select_secondary_ok kept sel Hsel) as (ts & ND & Hts & HF).
      assert (Hst : In (Some t) ts). { apply Hts. exists m0. split; [exact Hm0|]. unfold has_type in Htm0. destruct (dget m0 "magnitudetype") as [[t1|]|]; try discriminate. apply String.eqb_eq in Htm0. subst. reflexivity. }
      assert (Htyped : forall t', filter (typed (Some t')) kept = candidates pm id mags t').
      { intros t'. rewrite <- Hc. apply filter_ext. intros m. unfold typed, has_type. destruct (dget m "magnitudetype") as [[t1|]|]; reflexivity. }
      assert (Hc1 : exists c, In c sel /\ newest tf tm (filter (typed (Some t)) kept) c). { clear -HF Hst. induction HF as [|x y l l' Hy _ IH]; [destruct Hst|]. destruct Hst as [->|Hst]; [exists y; split; [left; reflexivity|exact Hy]|]. destruct (IH Hst) as (c & A & B). exists c. split; [right; exact A|exact B]. }
      destruct Hc1 as (c & Hcin & Hcn). exists c. rewrite <- Htyped. split; [exact Hcn|]. intros k s Hks. rewrite Hget by (apply (secondary_in t k s Hks)).
      assert (Hselty : forall x y, In x sel -> In y ts -> newest tf tm (filter (typed y) kept) x -> dget x "magnitudetype" = Some y).
      { intros x y _ _ Hn. apply newest_in in Hn. apply filter_In in Hn. destruct Hn as [_ Hn]. unfold typed in Hn. destruct (dget x "magnitudetype") as [z|]; [|discriminate]. apply oeqb_eq in Hn. subst. reflexivity. }
      assert (HF2 : Forall2 (fun y x => dget x "magnitudetype" = Some y) ts sel).
      { clear -HF. induction HF as [|y x l l' Hn _ IH]; constructor; [|exact IH]. apply newest_in in Hn. apply filter_In in Hn. destruct Hn as [_ Hn]. unfold typed in Hn. destruct (dget x "magnitudetype") as [z|]; [|discriminate]. apply oeqb_eq in Hn. subst. reflexivity. }
      assert (Hincl : incl sel mags). { intros x Hx. apply Hi. clear -HF Hx. induction HF as [|y x' l l' Hn _ IH]; [destruct Hx|]. destruct Hx as [->|Hx]; [|auto]. apply newest_in in Hn. apply filter_In in Hn. tauto. }
      assert (Hct : type_of c t). { apply newest_in in Hcn. apply filter_In in Hcn. destruct Hcn as [_ Hcn]. unfold typed in Hcn. unfold type_of. destruct (dget c "magnitudetype") as [z|]; [|discriminate]. apply oeqb_eq in Hcn. subst. reflexivity. }
      rewrite (secondary_own sel [] sec HX) with (m := c) (a := k); [destruct (dget c k); reflexivity| | |exact Hcin| |exact Hct|exact Hks].
      + intros m Hm. destruct (Hty m (Hincl m Hm)) as (t1 & T1). exists t1. split; [exact T1|]. apply (Htidy m t1 (Hincl m Hm) T1).
      + clear -HF2 ND. intros l1 m l2 E t0 T0 m' Hm' T0'. revert l1 E. induction HF2 as [|y x l l' Hx HF IH]; intros l1 E; [destruct l1; discriminate|]. inversion_clear ND as [|? ? N1 N2]. destruct l1 as [|z l1]; cbn in E; injection E as -> E.
        * apply N1. red in T0, T0'. rewrite T0 in Hx. injection Hx as <-. subst l'. clear -HF Hm' T0'. induction HF as [|y x l l' Hx _ IH]; [destruct Hm'|]. destruct Hm' as [->|Hm']; [left; congruence|right; auto].
        * exact (IH N2 l1 E).
      + intros m' Hm' T'. clear -HF2 ND Hcin Hct Hm' T'. induction HF2 as [|y x l l' Hx HF IH]; [destruct Hcin|]. inversion_clear ND as [|? ? N1 N2].
        assert (Q : forall z, In z l' -> dget z "magnitudetype" = Some y -> False). { intros z Hz K. apply N1. clear -HF Hz K. induction HF as [|y' x l l' Hx _ IH]; [destruct Hz|]. destruct Hz as [->|Hz]; [left; congruence|right; auto]. }
        red in T', Hct. destruct Hcin as [->|Hcin], Hm' as [->|Hm']; [reflexivity| | |auto].
        * exfalso. apply (Q m' Hm'). congruence.
        * exfalso. apply (Q c Hcin). congruence.
    - intros Hno k s Hks. destruct (secondary_in t k s Hks) as [_ Hs]. rewrite Hget by exact Hs. destruct (dget sec ("magnitude_" ++ t ++ s)%string) as [v|] eqn:D; [|reflexivity]. exfalso.
      assert (Hincl : incl sel mags).
      { destruct ia; [destruct Hsel as [[_ ->]|Hsel]; [intros ? []|]|subst; intros ? []]. apply select_secondary_ok in Hsel. destruct Hsel as (ts & _ & _ & HF). intros m Hm. apply Hi. clear -HF Hm. induction HF as [|t x l l' Hx _ IH]; [destruct Hm|]. destruct Hm as [->|Hm]; [|auto]. apply newest_in in Hx. apply filter_In in Hx. tauto. }
      destruct (secondary_keys sel [] sec ("magnitude_" ++ t ++ s)%string HX (fun m Hm => Hty m (Hincl m Hm))) as [K|(m & t1 & s1 & A & B & Hs1 & E)]; [rewrite D; discriminate|cbn in K; congruence|].
      apply prefix_inj in E. destruct (Htidy m t1 (Hincl m A) B) as [U1 _]. destruct (name_inj t t1 s s1 (proj1 Ht) U1 Hs Hs1 E) as [-> _].
      destruct Hno as [Hno|Hno]; [exact (Hno m (Hincl m A) B)|]. rewrite Hno in Hsel. subst sel. destruct A.
  Qed.
End Claims.


(** ** The theorems, about the record of an event *)
(** magnitude types of the event are tidy names *)
Definition tidy_types (e : event) : Prop := forall f t, In f (magnitude_fields strip e) -> field f "magnitudetype" = Some t -> tidy t.
(** any iteration order of Python sets *)
Definition arranges (so : list (option string) -> list (option string)) : Prop := forall l, NoDup l -> Permutation (so l) l.
Definition preferred_columns := ("magnitudetype", "magnitude_type") :: ("magnitudepublicID", "magnitudeID") :: map (fun ks => (fst ks, ("magnitude" ++ snd ks)%string)) value_columns.
Definition preferred_id (e : event) : option string := field (event_fields strip e) "preferredMagnitudeID".

Lemma shows_in ds fs d : Forall2 shows ds fs -> In d ds -> exists f, In f fs /\ shows d f.
Proof. induction 1 as [|x y l l' H _ IH]; intros Hin; [destruct Hin|]. destruct Hin as [<-|Hin]; [exists y; split; [left; reflexivity|exact H]|]. destruct (IH Hin) as (f & A & B). exists f. split; [right; exact A|exact B]. Qed.
Lemma record_setup tf tm so ia iq e r : Forall child_ok (ev_children e) -> tidy_types e -> parse_quakeml tf tm so ia iq (ser_doc (DEvent e)) = Ok [r] ->
  exists ev origins mags, Forall2 shows mags (magnitude_fields strip e) /\ parse_to_dict tf tm so ia iq ev origins mags = Ok r /\
    get_default ev "preferredMagnitudeID" = preferred_id e /\ (forall m, In m mags -> dget m "magnitudetype" <> Some None) /\ (forall m t, In m mags -> type_of m t -> tidy t).
Proof.
  intros Hok Ht H. destruct (C54_fields tf tm so ia iq e Hok) as (ev & origins & mags & A & _ & B & E). rewrite E in H. exists ev, origins, mags. split; [exact B|].
  destruct (parse_to_dict _ _ _ _ _ _ _ _) as [r'|]; cbn in H; [|discriminate]. injection H as ->. split; [reflexivity|]. split; [|split].
  - unfold get_default, preferred_id. rewrite (A "preferredMagnitudeID"). destruct (field _ _); reflexivity.
  - intros m Hm. destruct (shows_in _ _ _ B Hm) as (f & _ & Sf). rewrite (Sf "magnitudetype"). destruct (field _ _); cbn; congruence.
  - intros m t Hm T. destruct (shows_in _ _ _ B Hm) as (f & If & Sf). apply (Ht f t If). red in T. rewrite (Sf "magnitudetype") in T. destruct (field _ _); cbn in T; congruence.
Qed.

(** magnitude, magnitude_type, magnitudeID, magnitude_uncertainty... come from the first magnitude
    with the preferred id; without one they are missing or None *)
Theorem C55_preferred : forall tf tm so ia iq e r, arranges so -> Forall child_ok (ev_children e) -> tidy_types e ->
  parse_quakeml tf tm so ia iq (ser_doc (DEvent e)) = Ok [r] ->
  exists mags, Forall2 shows mags (magnitude_fields strip e) /\ forall k c, In (k, c) preferred_columns ->
    (forall p, first_with (fun x => id_of x (preferred_id e)) mags p -> dget r c = dget p k) /\
    ((forall m, In m mags -> ~ id_of m (preferred_id e)) -> dget r c = None \/ dget r c = Some None).
Proof.
  intros tf tm so ia iq e r Hso Hok Ht H. destruct (record_setup _ _ _ _ _ _ _ Hok Ht H) as (ev & origins & mags & B & P & Eid & H1 & H2). exists mags. split; [exact B|]. intros k c Hkc.
  destruct (preferred_ok tf tm so Hso ia iq ev origins mags r P H1 H2 k c Hkc) as [A1 A2]. rewrite Eid in A1, A2. split; [exact A1|]. intros Hno. rewrite (A2 Hno).
  unfold dummy_magnitude. cbn [dget]. destruct (k =? _)%string; [right; reflexivity|]. destruct (k =? _)%string; [right; reflexivity|left; reflexivity].
Qed.
Print Assumptions C55_preferred.

(** one set of columns per type: the newest magnitude of the type, for the type of the preferred
    magnitude only those with the preferred id; no columns for other types, none at all unless
    include_all_magnitudes *)
Theorem C55_secondary : forall tf tm so ia iq e r, arranges so -> Forall child_ok (ev_children e) -> tidy_types e ->
  parse_quakeml tf tm so ia iq (ser_doc (DEvent e)) = Ok [r] ->
  exists mags, Forall2 shows mags (magnitude_fields strip e) /\ forall t, tidy t ->
    let value_of m := forall k s, In (k, s) columns -> dget r ("magnitude_" ++ t ++ s)%string = dget m k in
    let of_type m := type_of m t in
    (ia = true -> forall p, first_with (fun x => id_of x (preferred_id e)) mags p -> type_of p t ->
       exists l c, l = filter (fun m => has_type t m && has_id (preferred_id e) m) mags /\ newest tf tm l c /\ value_of c) /\
    (ia = true -> (exists m, In m mags /\ of_type m) -> (forall p, first_with (fun x => id_of x (preferred_id e)) mags p -> ~ type_of p t) ->
       exists l c, l = filter (has_type t) mags /\ newest tf tm l c /\ value_of c) /\
    ((forall m, In m mags -> ~ of_type m) \/ ia = false -> forall k s, In (k, s) columns -> dget r ("magnitude_" ++ t ++ s)%string = None).
Proof.
  intros tf tm so ia iq e r Hso Hok Ht H. destruct (record_setup _ _ _ _ _ _ _ Hok Ht H) as (ev & origins & mags & B & P & Eid & H1 & H2). exists mags. split; [exact B|]. intros t Tt. cbv zeta.
  destruct (secondary_ok tf tm so Hso ia iq ev origins mags r P H1 H2 t Tt) as (pm & Hpm & A1 & A2). rewrite Eid in *.
  assert (Hty : forall m, has_type t m = true <-> type_of m t).
  { intros m. unfold has_type, type_of. destruct (dget m "magnitudetype") as [[t'|]|]; [rewrite String.eqb_eq|..]; split; congruence. }
  assert (Hid : forall m, has_id (preferred_id e) m = true <-> id_of m (preferred_id e)).
  { intros m. unfold has_id, id_of. destruct (dget m "magnitudepublicID"); [rewrite oeqb_eq|]; split; congruence. }
  assert (Hone : forall p q, first_with (fun x => id_of x (preferred_id e)) mags p -> first_with (fun x => id_of x (preferred_id e)) mags q -> p = q).
  { clear. intros p q (a1 & a2 & E1 & P1 & N1) (b1 & b2 & E2 & P2 & N2). rewrite E1 in E2. clear E1. revert b1 E2 N2. induction a1 as [|x a1 IH]; intros [|y b1] E N2; cbn in *; injection E as E0 E.
    + congruence.
    + subst y. exfalso. exact (N2 p (or_introl eq_refl) P1).
    + subst x. exfalso. exact (N1 q (or_introl eq_refl) P2).
    + apply (IH (fun z Hz => N1 z (or_intror Hz)) b1 E (fun z Hz => N2 z (or_intror Hz))). }
  split; [|split].
  - intros Hia p Hp Tp. assert (p = pm) by (destruct Hpm as [Hpm|[_ Hno]]; [eauto|exfalso; destruct Hp as (l1 & l2 & -> & Hp & _); apply (Hno p); [apply in_app_iff; right; left; reflexivity|exact Hp]]). subst pm.
    assert (HI : forall m, In m (candidates p (preferred_id e) mags t) <-> In m mags /\ type_of m t /\ id_of m (preferred_id e)).
    { intros m. unfold candidates. rewrite filter_In, andb_true_iff, Hty, orb_true_iff, negb_true_iff, Hid. rewrite (proj2 (Hty p) Tp). intuition discriminate. }
    destruct A1 as (c & Hn & Hv); [|exact Hia|exists (candidates p (preferred_id e) mags t), c; split; [unfold candidates; rewrite (proj2 (Hty p) Tp); reflexivity|auto]]. exists p. apply HI. destruct Hp as (l1 & l2 & -> & Hp & _). split; [apply in_app_iff; right; left; reflexivity|]. auto.
  - intros Hia (m & Hm & Tm) Hnp. assert (E : candidates pm (preferred_id e) mags t = filter (has_type t) mags).
    { unfold candidates. apply filter_ext. intros x. assert (has_type t pm = false) as ->; [|cbn [negb orb]; rewrite andb_true_r; reflexivity]. destruct (has_type t pm) eqn:F; [|reflexivity]. exfalso. destruct Hpm as [Hpm|[-> _]]; [exact (Hnp pm Hpm (proj1 (Hty pm) F))|discriminate F]. }
    rewrite E in A1. destruct A1 as (c & Hn & Hv); [|exact Hia|exists (filter (has_type t) mags), c; auto]. exists m. apply filter_In. split; [exact Hm|apply Hty; exact Tm].
  - exact A2.
Qed.
Print Assumptions C55_secondary.

(** a document that meets the hypotheses: preferred ML, an older ML, two Mw with versions *)
Section Example_C55.
  Definition mag (id v t ver : string) : child :=
    Magnitude [("publicID", id)] [PElem "mag" [] [PElem "value" [] [PText [v]]]; PElem "type" [] [PText [t]]; PElem "creationInfo" [] [PElem "version" [] [PText [ver]]]].
  Definition sample55 : event := mkevent [("publicID", "e1")]
    [Plain (PElem "preferredMagnitudeID" [] [PText ["m2"]]); mag "m1" "2.1" "ML" "9"; mag "m2" "2.3" "ML" "1"; mag "m3" "2.5" "Mw" "1"; mag "m4" "2.6" "Mw" "2"].
  Definition tf1 (s : option string) : res Q := match s with Some "1" => Ok 1%Q | Some "2" => Ok 2%Q | Some "9" => Ok 9%Q | _ => Err ValueError end.
  Definition tm1 (s : option string) : res Z := Err ValueError.
  Example sample55_record : exists r, parse_quakeml tf1 tm1 (fun l => rev l) true false (ser_doc (DEvent sample55)) = Ok [r] /\
    dget r "magnitude" = Some (Some "2.3") /\ dget r "magnitude_ML" = Some (Some "2.3") /\ dget r "magnitude_Mw" = Some (Some "2.6").
  Proof. eexists. split; [vm_compute; reflexivity|]. split; [reflexivity|]. split; reflexivity. Qed.
  Example sample55_ok : arranges (fun l => rev l) /\ Forall child_ok (ev_children sample55) /\ tidy_types sample55.
  Proof.
    split; [intros l _; apply Permutation_sym, Permutation_rev|]. split; [repeat constructor|]. intros f t Hf.
    vm_compute in Hf. destruct Hf as [<-|[<-|[<-|[<-|[]]]]]; vm_compute; intros [= <-]; (split; [reflexivity|intuition discriminate]).
  Qed.
End Example_C55.
