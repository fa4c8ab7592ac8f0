(** * C203-C206: arguments with one entry per event (weights, times), passed on to the estimator by
    estimate_mc_ks, estimate_mc_b_stability and b_significant_1D *)
From Coq Require Import ZArith List Bool Lia Reals Lra Permutation Sorted.
From Verif Require Import Base Num XR RList SortLib Binning_model Spec_Binning Binning_proofs BinTest_proofs Fmd_proofs Props_Binning BValue_model BValue_run BValue_real BValue_proofs
  Props_BValue Props_BValue2 Spec_Positive Positive_proofs Props_Positive Simulate_model Spec_BValue Mc_model Spec_Mc Props_Mc Props_Mc2 Props_Mc3 AValue_model BSig_model Spec_BSig Props_BSig.
Import ListNotations.

Section Any.
  Context {T : Type} {N : Num T}.
  (** the event has a magnitude at or above mc (half a bin lower) *)
  Definition complete_at (delta : dec) (mc m : T) : bool := nleb (nsub mc (ndiv (dec_val delta) two)) m.

  Lemma run_weights_length srt k (a : @args T) u ws : run srt k a = Ok u -> a_weights a = Some ws -> length ws = length (a_mags a).
  Proof. intros R E. apply run_cases in R. destruct R as [C _]. apply check_len in C. rewrite E in C. exact C. Qed.
  Lemma calc_weights_length srt k wn (a : @args T) o o' b ws : calculate srt k wn a o = (o', Ok b) -> a_weights a = Some ws -> length ws = length (a_mags a).
  Proof. intros C E. apply calculate_inv in C. destruct C as (u & R & _). apply (run_weights_length _ _ _ _ _ R E). Qed.
  Lemma estimate_weights_length srt k wn (a : @args T) par s n draws r ws : estimate_b srt k wn a par s n draws = Ok r -> a_weights a = Some ws -> length ws = length (a_mags a).
  Proof.
    unfold estimate_b. intros H E. destruct (calculate srt k wn a new_obj) as [o' [b|]] eqn:C; [|discriminate]. apply (calc_weights_length _ _ _ _ _ _ _ _ C E).
  Qed.
  Lemma filter_all {A} (f : A -> bool) l : length (filter f l) = length l -> forall x, In x l -> f x = true.
  Proof.
    assert (L : forall l' : list A, (length (filter f l') <= length l')%nat) by (induction l' as [|y l' IH]; cbn; [lia|]; destruct (f y); cbn; lia).
    induction l as [|y l IH]; [intros _ x []|]. cbn [filter length]. intros H x Hx. specialize (L l). destruct (f y) eqn:E; cbn [length] in H.
    - destruct Hx as [<-|Hx]; [exact E|]. apply IH; [lia|exact Hx].
    - lia.
  Qed.
  Lemma sample_all mags delta mc (ws : list T) : length ws = length mags -> length ws = length (sample_from mags delta mc) ->
    forall m, In m mags -> complete_at delta mc m = true.
  Proof. intros H1 H2. apply (filter_all (complete_at delta mc)). change (filter (complete_at delta mc) mags) with (sample_from mags delta mc). congruence. Qed.
  Lemma b_from_weights srt k (kw : @bkwargs T) w mags delta mc b ws : b_from srt k kw w mags delta mc = Ok b -> bk_weights kw = Some ws ->
    length ws = length (sample_from mags delta mc).
  Proof.
    unfold b_from. intros H E. destruct (estimate_b _ _ _ _ _ _ _ _) as [r|] eqn:C; [|discriminate]. apply (estimate_weights_length _ _ _ _ _ _ _ _ _ _ C E).
  Qed.
  Lemma b_std_from_weights srt k (kw : @bkwargs T) w draws mags delta mc b ws : b_std_from srt k kw w draws mags delta mc = Ok b -> bk_weights kw = Some ws ->
    length ws = length (sample_from mags delta mc).
  Proof.
    unfold b_std_from. intros H E. destruct (estimate_b _ _ _ _ _ _ _ _) as [r|] eqn:C; [|discriminate]. apply (estimate_weights_length _ _ _ _ _ _ _ _ _ _ C E).
  Qed.
  Lemma mapM_in {A B} (f : A -> res B) l r : mapM f l = Ok r -> forall y, In y r -> exists x, In x l /\ f x = Ok y.
  Proof.
    revert r. induction l as [|x l IH]; intros r; cbn [mapM]; [intros [= <-] y []|].
    destruct (f x) as [y|] eqn:E; [|discriminate]. cbn [rbind]. destruct (mapM f l) as [ys|] eqn:E'; [|discriminate]. cbn [rbind]. intros [= <-] z [<-|Hz].
    - exists x. split; [left; reflexivity|exact E].
    - destruct (IH _ eq_refl z Hz) as (x' & Hx & Ex). exists x'. split; [right; exact Hx|exact Ex].
  Qed.
  Lemma mapM_all {A B} (f : A -> res B) l r : mapM f l = Ok r -> forall x, In x l -> exists y, f x = Ok y.
  Proof.
    revert r. induction l as [|x l IH]; intros r; cbn [mapM]; [intros _ x []|].
    destruct (f x) as [y|] eqn:E; [|discriminate]. cbn [rbind]. destruct (mapM f l) as [ys|] eqn:E'; [|discriminate]. intros _ z [<-|Hz]; [eauto|]. eapply IH; eauto.
  Qed.
End Any.

(** ** C203: weights and the search for the completeness magnitude *)
(** One weight per event: whenever estimate_mc_ks returns, every tested magnitude was so low that
    all events are complete. *)
Theorem C203_ks_refuted : forall T (N : Num T) srt k kw u e w mags delta mcs_test pp stop n ksl ws (r : ks_result T),
  bk_weights kw = Some ws -> length ws = length mags ->
  estimate_mc_ks srt k kw u e w mags delta mcs_test pp stop None n ksl = Ok r ->
  forall mc x, In (mc, x) (ks_tested r) -> forall m, In m mags -> complete_at delta mc m = true.
Proof.
  intros T N srt k kw u e w mags delta mcs_test pp stop n ksl ws r Hw Hl H mc x Hx. apply C42_tested in H. destruct H as (mcs & l1 & l2 & _ & _ & Hm & _).
  destruct (mapM_in _ _ _ Hm _ Hx) as (q & _ & Eq). unfold ks_outcome in Eq. destruct (b_from srt k kw w mags delta (snd q)) as [b|] eqn:Eb; [|discriminate]. cbn [rbind] in Eq.
  destruct (match ksl with None => _ | Some _ => _ end) as [ks|]; [|discriminate]. cbn [rbind] in Eq.
  destruct (ks_test_gr _ _ _ _ _ _ _ _ _ _) as [p|]; [|discriminate]. cbn [rbind] in Eq. injection Eq as E1 _.
  apply (b_from_weights _ _ _ _ _ _ _ _ _ Eb) in Hw. rewrite E1 in Hw. apply (sample_all _ _ _ ws Hl Hw).
Qed.
Print Assumptions C203_ks_refuted.
(** So a single event below the smallest magnitude to test makes the whole search fail. *)
Theorem C203_ks_raises_refuted : forall T (N : Num T) srt k kw u e w mags delta mcs_test pp stop n ksl ws c cs m,
  bk_weights kw = Some ws -> length ws = length mags ->
  mcs_of mags delta mcs_test = Ok (c :: cs) -> In m mags -> complete_at delta c m = false ->
  exists err, estimate_mc_ks (T := T) srt k kw u e w mags delta mcs_test pp stop None n ksl = Err err.
Proof.
  intros T N srt k kw u e w mags delta mcs_test pp stop n ksl ws c cs m Hw Hl Hc Hm Hn.
  destruct (estimate_mc_ks _ _ _ _ _ _ _ _ _ _ _ _ _ _) as [r|err] eqn:E; [|eauto]. exfalso.
  pose proof E as E'. apply C42_tested in E'. destruct E' as (mcs & l1 & l2 & Em & Eq & Hmap & H2 & _). rewrite Hc in Em. injection Em as <-.
  assert (X : exists x, In (c, x) (ks_tested r)).
  { destruct l1 as [|q l1].
    - cbn [mapM] in Hmap. injection Hmap as Ht. cbn [app] in Eq. destruct H2 as (_ & r1 & t & Et & _); [rewrite <- Eq; discriminate|].
      rewrite <- Ht in Et. destruct r1; discriminate Et.
    - cbn [length seq combine app] in Eq. injection Eq as Eq _. subst q. cbn [mapM] in Hmap.
      destruct (ks_outcome _ _ _ _ _ _ _ _ _ _ _ (0%nat, c)) as [t|] eqn:Et; [|discriminate]. cbn [rbind] in Hmap. destruct (mapM _ l1) as [ts|]; [|discriminate]. cbn [rbind] in Hmap. injection Hmap as Ht.
      unfold ks_outcome in Et. destruct (b_from srt k kw w mags delta (snd (0%nat, c))) as [b|]; [|discriminate]. cbn [rbind snd fst] in Et.
      destruct (match ksl with None => _ | Some _ => _ end) as [ks|]; [|discriminate]. cbn [rbind] in Et.
      destruct (ks_test_gr _ _ _ _ _ _ _ _ _ _) as [p|]; [|discriminate]. cbn [rbind] in Et. injection Et as <-. eexists. rewrite <- Ht. left. reflexivity. }
  destruct X as (x & Hx). rewrite (C203_ks_refuted _ _ _ _ _ _ _ _ _ _ _ _ _ _ _ _ _ Hw Hl E _ _ Hx m Hm) in Hn. discriminate.
Qed.
Print Assumptions C203_ks_raises_refuted.
(** The same for estimate_mc_b_stability: every magnitude of the stability range must have been
    below all events. *)
Theorem C203_b_stability_refuted : forall T (N : Num T) srt k kw draws w mags delta mcs_test stop range ws (r : stab_result T),
  bk_weights kw = Some ws -> length ws = length mags ->
  estimate_mc_b_stability srt k kw draws w mags delta mcs_test stop range = Ok r ->
  forall mc x, In (mc, x) (st_tested r) ->
  (forall m, In m mags -> complete_at delta mc m = true) /\
  exists cs, cutoffs mags delta range mc = Ok cs /\ forall c, In c cs -> forall m, In m mags -> complete_at delta c m = true.
Proof.
  intros T N srt k kw draws w mags delta mcs_test stop range ws r Hw Hl H mc x Hx. apply C45_tested in H. destruct H as (ar & mcs & H).
  assert (Hm : exists l1, mapM (stab_outcome srt k kw draws w mags delta range (length ar)) l1 = Ok (st_tested r)).
  { destruct H as (H & H0 & H1). destruct H1 as (l1 & H1). destruct H1 as (l2 & _ & H1 & _). eauto. }
  destruct Hm as (l1 & Hm). destruct (mapM_in _ _ _ Hm _ Hx) as (q & _ & Eq). unfold stab_outcome in Eq.
  destruct (b_std_from srt k kw w (draws (fst q)) mags delta (snd q)) as [[b s]|] eqn:Eb; [|discriminate]. cbn [rbind] in Eq.
  destruct (cutoffs mags delta range (snd q)) as [cs|] eqn:Ec; [|discriminate]. cbn [rbind] in Eq.
  destruct (mapM (b_from srt k kw w mags delta) cs) as [bs|] eqn:Ebs; [|discriminate]. cbn [rbind] in Eq. injection Eq as E1 _. rewrite E1 in *.
  split; [apply (sample_all _ _ _ ws Hl); exact (b_std_from_weights _ _ _ _ _ _ _ _ _ _ Eb Hw)|].
  exists cs. split; [exact Ec|]. intros c Hc. destruct (mapM_all _ _ _ Ebs c Hc) as (y & Ey). apply (sample_all _ _ _ ws Hl). exact (b_from_weights _ _ _ _ _ _ _ _ _ Ey Hw).
Qed.
Print Assumptions C203_b_stability_refuted.

(** ** C204, C205: times and the search for the completeness magnitude *)
Section Times.
  Context {T : Type} {N : Num T}.
  (** the estimator as a user calls it *)
  Definition b_of (srt : list T -> list nat) (k : kind) (w : bool) (a : @args T) : res T :=
    match estimate_b srt k w a PB false false [] with Ok (OutB b) => Ok b | Ok _ => Err TypeError | Err e => Err e end.
  (** the same arguments with other times *)
  Definition with_times (a : @args T) (ts : option (list T)) : @args T := mkargs (a_mags a) (a_mc a) (a_delta a) (a_weights a) ts (a_dmc a).
  (** strictly increasing *)
  Definition increasing (ts : list T) : Prop :=
    forall i j x y, (i < j)%nat -> nth_error ts i = Some x -> nth_error ts j = Some y -> nsort_le y x = false.
  (** the times of the complete events *)
  Definition own_times (mags : list T) (delta : dec) (mc : T) (ts : list T) : list T :=
    map snd (filter (fun p => complete_at delta mc (fst p)) (combine mags ts)).

  Lemma b_of_run srt k w (a : @args T) : b_of srt k w a = rmap u_b (run srt k a).
  Proof.
    unfold b_of, estimate_b. pose proof (calculate_run srt k w a new_obj) as R. destruct (run srt k a) as [u|e].
    - destruct R as (o' & -> & F). cbn [rbind rmap]. unfold b_value. destruct F as (_ & _ & _ & _ & _ & -> & _). reflexivity.
    - destruct R as (o' & -> & _). reflexivity.
  Qed.
  Lemma gather_firstn n (ts : list T) idx : (forall i, In i idx -> (i < n)%nat) -> gather (firstn n ts) idx = gather ts idx.
  Proof.
    intros H. induction idx as [|i idx IH]; [reflexivity|]. cbn [gather].
    assert (Hi : (i < n)%nat) by (apply H; left; reflexivity). rewrite IH by (intros j Hj; apply H; right; exact Hj).
    replace (nth_error (firstn n ts) i) with (nth_error ts i); [reflexivity|]. clear - Hi. revert n i Hi. induction ts as [|t ts IH]; intros [|n] [|i] Hi; cbn; try lia; try reflexivity.
    apply IH. lia.
  Qed.
  Lemma run_firstn srt k (a : @args T) ts : a_times a = Some ts -> run srt k a = run srt k (with_times a (Some (firstn (length (a_mags a)) ts))).
  Proof.
    intros E. unfold run. change (the_dmc (with_times a _)) with (the_dmc a). change (check (with_times a _)) with (check a).
    replace (f_times k (with_times a (Some (firstn (length (a_mags a)) ts)))) with (f_times k a); [destruct k; reflexivity|].
    unfold f_times. destruct (is_pos k); [|reflexivity]. rewrite E. cbn [with_times a_times ogather].
    change (f_idx (with_times a _)) with (f_idx a). rewrite gather_firstn; [reflexivity|]. intros i. apply f_idx_lt.
  Qed.
  Lemma SS_strict (ts : list T) l : increasing ts -> NoDup l -> (forall i, In i l -> (i < length ts)%nat) -> StronglySorted (not_later ts) l -> StronglySorted lt l.
  Proof.
    intros Hi Hn Hl Hs. induction Hs as [|i l S IH F]; [constructor|]. inversion Hn as [|? ? Hni Hn']; subst. constructor.
    - apply IH; [exact Hn'|]. intros j Hj. apply Hl. right. exact Hj.
    - rewrite Forall_forall in *. intros j Hj. destruct (Nat.lt_trichotomy i j) as [H|[H|H]]; [exact H|subst; contradiction|]. exfalso.
      assert (Li : (i < length ts)%nat) by (apply Hl; left; reflexivity). assert (Lj : (j < length ts)%nat) by (apply Hl; right; exact Hj).
      destruct (nth_error ts i) as [x|] eqn:Ex; [|apply nth_error_None in Ex; lia]. destruct (nth_error ts j) as [y|] eqn:Ey; [|apply nth_error_None in Ey; lia].
      specialize (F j Hj x y Ex Ey). rewrite (Hi j i y x H Ey Ex) in F. discriminate.
  Qed.
  Lemma SS_seq n : forall k, StronglySorted lt (seq k n).
  Proof. induction n as [|n IH]; intros k; cbn; constructor; [apply IH|]. apply Forall_forall. intros x Hx. apply in_seq in Hx. lia. Qed.
  Lemma argsort_increasing srt (ts : list T) : argsort_ok srt -> increasing ts -> srt ts = seq 0 (length ts).
  Proof.
    intros Hs Hi. destruct (Hs ts) as [P S]. apply (sorted_perm_unique lt); [intros; lia| |apply SS_seq|exact P].
    apply (SS_strict ts); [exact Hi| | |exact S].
    - apply (Permutation_NoDup (Permutation_sym P)). apply seq_NoDup.
    - intros i H. apply (Permutation_in _ P) in H. apply in_seq in H. lia.
  Qed.
  Lemma gather_seq {A} (l pre : list A) : gather (app pre l) (seq (length pre) (length l)) = Ok l.
  Proof.
    revert pre. induction l as [|x l IH]; intros pre; [reflexivity|]. cbn [length seq gather]. rewrite nth_error_app2, Nat.sub_diag by lia. cbn [nth_error].
    specialize (IH (app pre [x])). rewrite <- app_assoc in IH. cbn [app] in IH. rewrite app_length in IH. cbn [length] in IH. replace (length pre + 1)%nat with (S (length pre)) in IH by lia.
    rewrite IH. reflexivity.
  Qed.
  Lemma gather_all {A} (l : list A) n : n = length l -> gather l (seq 0 n) = Ok l.
  Proof. intros ->. apply (gather_seq l []). Qed.
  Lemma ordered_increasing srt ms ws ix (t : list T) : argsort_ok srt -> increasing t -> length ms = length t -> length ix = length t ->
    match ws with None => True | Some w => length w = length t end -> ordered srt ms ws ix (Some t) = Ok (ms, ws, ix, Some t).
  Proof.
    intros Hs Hi H1 H2 H3. unfold ordered. rewrite (argsort_increasing srt t Hs Hi). rewrite gather_all by congruence. cbn [rbind].
    replace (ogather ws (seq 0 (length t))) with (@Ok (option (list T)) ws).
    - cbn [rbind]. rewrite !gather_all by congruence. reflexivity.
    - destruct ws as [w|]; [|reflexivity]. cbn [ogather]. rewrite gather_all by congruence. reflexivity.
  Qed.
  (** outcomes that agree in everything but the times *)
  Definition same_out (r r' : res (@out T)) : Prop :=
    match r, r' with
    | Ok u, Ok u' => u_mags u = u_mags u' /\ u_weights u = u_weights u' /\ u_idx u = u_idx u' /\ u_omags u = u_omags u' /\ u_oweights u = u_oweights u' /\ u_b u = u_b u'
    | Err e, Err e' => e = e' | _, _ => False end.
  Lemma increasing_gather (ts : list T) idx t : increasing ts -> StronglySorted lt idx -> gather ts idx = Ok t -> increasing t.
  Proof.
    intros Hi Hs G i j x y Hij Ex Ey. apply gather_spec in G.
    assert (Q : forall q v, nth_error t q = Some v -> exists p, nth_error idx q = Some p /\ nth_error ts p = Some v).
    { clear - G. induction G as [|p v idx t E G IH]; intros [|q] v' Ev; cbn in *; try discriminate; [injection Ev as <-; eauto|apply IH; exact Ev]. }
    destruct (Q _ _ Ex) as (pi & Ei & Ex'). destruct (Q _ _ Ey) as (pj & Ej & Ey'). apply (Hi pi pj); [|exact Ex'|exact Ey'].
    clear - Hs Ei Ej Hij. revert i j Hij Ei Ej. induction Hs as [|p idx S IH F]; intros [|i] [|j] Hij Ei Ej; cbn in *; try lia; try discriminate.
    - injection Ei as <-. rewrite Forall_forall in F. apply F. apply (nth_error_In _ _ Ej).
    - apply (IH i j); [lia|exact Ei|exact Ej].
  Qed.
  Lemma f_idx_sorted (a : @args T) : StronglySorted lt (f_idx a).
  Proof.
    unfold f_idx, where_idx. generalize (keep a) at 1. intros l. assert (H : StronglySorted lt (where_from 0 l)); [|exact H]. generalize 0%nat as n.
    assert (Q : forall l n i, In i (where_from n l) -> (n <= i)%nat).
    { clear. induction l as [|b l IH]; intros n i; cbn; [intros []|]. destruct b; [intros [<-|H]; [lia|]|intros H]; apply IH in H; lia. }
    induction l as [|b l IH]; intros n; cbn; [constructor|]. destruct b; [|apply IH]. constructor; [apply IH|]. apply Forall_forall. intros i Hi. apply Q in Hi. lia.
  Qed.
  Lemma lengths_f (a : @args T) : length (f_mags a) = length (f_idx a) /\ (check a = Ok tt -> match f_weights a with None => True | Some w => length w = length (f_idx a) end).
  Proof.
    split.
    - unfold f_mags, f_idx. rewrite <- (gather_length (a_mags a) (where_idx (keep a)) (compress (keep a) (a_mags a))); [reflexivity|]. apply gather_where. apply keep_length.
    - intros C. apply check_len in C. unfold f_weights, f_idx. destruct (a_weights a) as [ws|]; [|exact I]. cbn [option_map].
      apply (gather_length ws). apply gather_where. rewrite keep_length. congruence.
  Qed.
  Lemma run_increasing srt k (a : @args T) ts : argsort_ok srt -> increasing ts -> (length (a_mags a) <= length ts)%nat ->
    same_out (run srt k (with_times a (Some ts))) (run srt k (with_times a None)).
  Proof.
    intros Hs Hi Hl. unfold run. change (the_dmc (with_times a _)) with (the_dmc a). destruct (if is_pos k && _ then _ else _) as [[]|]; [|reflexivity]. cbn [rbind].
    change (check (with_times a (Some ts))) with (check a). change (check (with_times a None)) with (check a).
    destruct (check a) as [[]|] eqn:C; [|reflexivity]. cbn [rbind]. destruct (lengths_f a) as [L1 L2]. specialize (L2 C).
    unfold f_times. change (f_idx (with_times a _)) with (f_idx a). change (f_mags (with_times a _)) with (f_mags a). change (f_weights (with_times a _)) with (f_weights a).
    destruct (is_pos k) eqn:P; [|destruct (f_mags a); [cbn; auto 7|destruct k; [| |discriminate|discriminate]; cbn [run_est]; destruct (_ _ _ _ _); cbn; auto 7]].
    cbn [with_times a_times ogather rbind].
    destruct (gather_ok ts (f_idx a)) as (t & Et). { intros i Hin. apply f_idx_lt in Hin. lia. }
    rewrite Et. cbn [rmap rbind]. destruct (f_mags a) as [|m ms] eqn:Em; [cbn; auto 7|].
    pose proof (gather_length _ _ _ Et) as Lt. pose proof (increasing_gather _ _ _ Hi (f_idx_sorted a) Et) as It.
    assert (O : ordered srt (m :: ms) (f_weights a) (f_idx a) (Some t) = Ok (m :: ms, f_weights a, f_idx a, Some t)).
    { apply ordered_increasing; [exact Hs|exact It|congruence|congruence|]. destruct (f_weights a); [congruence|exact I]. }
    destruct k; try discriminate P; cbn [run_est].
    - unfold run_pos. rewrite O. unfold ordered. cbn [rbind]. change (the_dmc (with_times a _)) with (the_dmc a). change (a_delta (with_times a _)) with (a_delta a).
      match goal with |- same_out (rbind ?x _) _ => destruct x end; [|reflexivity]. cbn [rbind].
      match goal with |- same_out (rbind ?x _) _ => destruct x end; cbn; auto 7.
    - unfold run_more. rewrite O. unfold ordered. cbn [rbind]. change (the_dmc (with_times a _)) with (the_dmc a). change (a_delta (with_times a _)) with (a_delta a).
      match goal with |- same_out (rbind ?x _) _ => destruct x end; [|reflexivity]. cbn [rbind].
      match goal with |- same_out (rbind ?x _) _ => destruct x end; [|reflexivity]. cbn [rbind].
      destruct (gather (f_idx a) _) as [ix2|] eqn:Eix; [|reflexivity]. cbn [rbind].
      match goal with |- same_out (rbind ?x _) _ => destruct x end; [|reflexivity]. cbn [rbind ogather].
      match goal with Eix : gather _ ?nx = _ |- _ => destruct (gather_ok t nx) as (t2 & Et2) end.
      { intros i Hin. rewrite Lt. apply gather_spec in Eix. clear - Eix Hin. induction Eix as [|p v l l' E _ IH]; [destruct Hin|]. destruct Hin as [<-|Hin]; [|apply IH; exact Hin].
        apply nth_error_Some. rewrite E. discriminate. }
      rewrite Et2. cbn [rmap rbind].
      match goal with |- same_out (rbind ?x _) _ => destruct x end; cbn; auto 7.
  Qed.
  Lemma same_out_b r r' : same_out r r' -> rmap u_b r = rmap u_b r'.
  Proof. destruct r, r'; cbn; [intros (_ & _ & _ & _ & _ & ->)|intros []|intros []|intros ->]; reflexivity. Qed.
  Lemma estimate_increasing srt k w (a : @args T) ts par s n draws : argsort_ok srt -> increasing ts -> (length (a_mags a) <= length ts)%nat ->
    estimate_b srt k w (with_times a (Some ts)) par s n draws = estimate_b srt k w (with_times a None) par s n draws.
  Proof.
    intros Hs Hi Hl. pose proof (run_increasing srt k a ts Hs Hi Hl) as S. unfold estimate_b.
    pose proof (calculate_run srt k w (with_times a (Some ts)) new_obj) as R1. pose proof (calculate_run srt k w (with_times a None) new_obj) as R2.
    destruct (run srt k (with_times a (Some ts))) as [u|e], (run srt k (with_times a None)) as [u'|e']; cbn [same_out] in S; try contradiction.
    2:{ destruct R1 as (o1 & -> & _). destruct R2 as (o2 & -> & _). rewrite S. reflexivity. }
    destruct S as (S1 & S2 & S3 & S4 & S5 & S6). destruct R1 as (o1 & -> & F). destruct R2 as (o2 & -> & G). cbn [rbind].
    destruct F as (F1 & F2 & F3 & F4 & F5 & F6 & F7 & F8 & F9 & F10). destruct G as (G1 & G2 & G3 & G4 & G5 & G6 & G7 & G8 & G9 & G10).
    assert (Eb : b_value o1 = b_value o2) by (unfold b_value; rewrite F6, G6, S6; reflexivity).
    assert (Em : mags_of o1 = mags_of o2) by (unfold mags_of; rewrite F1, G1, S1; reflexivity).
    assert (Ew : o_weights o1 = o_weights o2) by congruence.
    assert (En : est_n o1 = est_n o2) by (unfold est_n; rewrite Eb, ?F1, ?G1, ?S1, ?Em; reflexivity).
    assert (Et : est_beta o1 = est_beta o2) by (unfold est_beta; rewrite Eb; reflexivity).
    assert (Es : est_std o1 = est_std o2) by (unfold est_std; rewrite Eb, Em, Ew; reflexivity).
    assert (Est : est_std_beta o1 = est_std_beta o2) by (unfold est_std_beta; rewrite Et, Em, Ew; reflexivity).
    assert (Ep : k = BMorePositive -> more_positive_std srt w draws o1 = more_positive_std srt w draws o2).
    { intros ->. cbn [is_pos] in F10, G10. unfold more_positive_std. rewrite Eb, F2, F3, G2, G3. destruct (b_value o2); [|reflexivity]. cbn [rbind with_times a_mc a_delta].
      unfold bootstrap_std. f_equal. apply mapM_ext. intros d. unfold bootstrap_func. rewrite F7, G7, S4, Ew, F8, G8, S5, F10, G10. reflexivity. }
    rewrite Eb, Et, En, Es, Est. destruct k; try reflexivity. rewrite Ep by reflexivity. reflexivity.
  Qed.
  Lemma increasing_firstn (ts : list T) n : increasing ts -> increasing (firstn n ts).
  Proof.
    intros H i j x y Hij Ex Ey. apply (H i j x y Hij).
    - clear - Ex. revert n i Ex. induction ts as [|t ts IH]; intros [|n] [|i] E; cbn in *; try discriminate; [exact E|apply (IH n); exact E].
    - clear - Ey. revert n j Ey. induction ts as [|t ts IH]; intros [|n] [|i] E; cbn in *; try discriminate; [exact E|apply (IH n); exact E].
  Qed.
  Lemma own_times_gather mags delta mc ts : length ts = length mags ->
    gather ts (where_idx (map (complete_at delta mc) mags)) = Ok (own_times mags delta mc ts).
  Proof.
    intros L. rewrite gather_where by (rewrite map_length; congruence). f_equal. unfold own_times. revert ts L. induction mags as [|m mags IH]; intros [|t ts] L; cbn in L; try discriminate; [reflexivity|].
    cbn [map compress combine filter fst]. destruct (complete_at delta mc m); cbn [map snd]; rewrite IH by congruence; reflexivity.
  Qed.
  Lemma own_times_length mags delta mc (ts : list T) : length ts = length mags -> length (own_times mags delta mc ts) = length (sample_from mags delta mc).
  Proof.
    unfold own_times. rewrite map_length. revert ts. induction mags as [|m mags IH]; intros [|t ts] L; cbn in L; try discriminate; [reflexivity|].
    cbn [combine filter fst sample_from]. unfold complete_at at 1. destruct (nleb _ m); cbn [length]; rewrite IH by congruence; reflexivity.
  Qed.
  Lemma own_times_increasing mags delta mc (ts : list T) : length ts = length mags -> increasing ts -> increasing (own_times mags delta mc ts).
  Proof.
    intros L H. eapply increasing_gather; [exact H| |apply own_times_gather; exact L].
    set (a := mkargs mags mc delta None None None). change (where_idx (map (complete_at delta mc) mags)) with (f_idx a). apply f_idx_sorted.
  Qed.
End Times.

(** C204: the times are used as if the first n of them belonged to the n complete events. *)
Theorem C204_ks_refuted : forall T (N : Num T) srt k kw u e w mags delta mcs_test pp stop n ksl ts (r : ks_result T),
  bk_times kw = Some ts ->
  estimate_mc_ks srt k kw u e w mags delta mcs_test pp stop None n ksl = Ok r ->
  forall mc p d b, In (mc, (p, d, b)) (ks_tested r) ->
  let s := sample_from mags delta mc in
  b_of srt k w (mkargs s mc delta (bk_weights kw) (Some (firstn (length s) ts)) (bk_dmc kw)) = Ok b.
Proof.
  intros T N srt k kw u e w mags delta mcs_test pp stop n ksl ts r Ht H mc p d b Hx s. apply C42_tested in H. destruct H as (mcs & l1 & l2 & _ & _ & Hm & _).
  destruct (mapM_in _ _ _ Hm _ Hx) as (q & _ & Eq). unfold ks_outcome in Eq. destruct (b_from srt k kw w mags delta (snd q)) as [b'|] eqn:Eb; [|discriminate]. cbn [rbind] in Eq.
  destruct (match ksl with None => _ | Some _ => _ end) as [ks|]; [|discriminate]. cbn [rbind] in Eq.
  destruct (ks_test_gr _ _ _ _ _ _ _ _ _ _) as [p'|]; [|discriminate]. cbn [rbind] in Eq. injection Eq as E1 _ _ E2. subst b'.
  rewrite E1 in Eb. change (b_from srt k kw w mags delta mc) with (b_of srt k w (with_kw s mc delta kw)) in Eb. rewrite b_of_run in *.
  rewrite (run_firstn srt k (with_kw s mc delta kw) ts Ht) in Eb. exact Eb.
Qed.
Print Assumptions C204_ks_refuted.
Theorem C204_b_stability_refuted : forall T (N : Num T) srt k kw w mags delta mc ts,
  bk_times kw = Some ts ->
  let s := sample_from mags delta mc in
  b_from srt k kw w mags delta mc = b_of srt k w (mkargs s mc delta (bk_weights kw) (Some (firstn (length s) ts)) (bk_dmc kw)).
Proof.
  intros T N srt k kw w mags delta mc ts Ht s. change (b_from srt k kw w mags delta mc) with (b_of srt k w (with_kw s mc delta kw)). rewrite !b_of_run.
  rewrite (run_firstn srt k (with_kw s mc delta kw) ts Ht). reflexivity.
Qed.
Print Assumptions C204_b_stability_refuted.

(** A catalogue for which this gives another value: magnitudes 1, 2, 4 at times 1, 3, 2.  Above
    magnitude 2, the event of magnitude 4 is the earlier one, there is no positive difference. *)
Section Witness.
  Local Open Scope R_scope.
  Definition w204 : list xr := [Fin 1; Fin 2; Fin 4].
  Definition t204 : list xr := [Fin 1; Fin 3; Fin 2].
  Definition d204 : dec := mkdec 1 0.
  Lemma d204R : decR d204 = 1. Proof. apply decR1. Qed.
  Lemma s204 : sample_from w204 d204 (Fin 2) = [Fin 2; Fin 4].
  Proof.
    unfold sample_from, w204. cbn [filter]. rewrite x_dec_val, d204R, x_two, x_div, x_sub by lra.
    rewrite !x_leb. rewrite (proj2 (rle_false _ _)) by lra. rewrite !(proj2 (rle_true _ _)) by lra. reflexivity.
  Qed.
  Lemma own204 : own_times w204 d204 (Fin 2) t204 = [Fin 3; Fin 2].
  Proof.
    unfold own_times, w204, t204. cbn [combine filter fst]. unfold complete_at. rewrite x_dec_val, d204R, x_two, x_div, x_sub by lra.
    rewrite !x_leb. rewrite (proj2 (rle_false _ _)) by lra. rewrite !(proj2 (rle_true _ _)) by lra. reflexivity.
  Qed.
  Lemma binned_24 ts : binned_ok (mkargs [Fin 2; Fin 4] (Fin 2) d204 None ts None).
  Proof.
    right. pose proof (check_grid [2; 4] 2 d204 0) as K. rewrite check_u in K. cbn [map] in K. cbn [a_mags a_delta].
    rewrite x_lit. change (IZR 1 / IZR (10 ^ Z.of_nat 15)) with tol15.
    destruct (binning_test _ _ _ _) as [[]|]; [reflexivity| |]; exfalso;
      (assert (X : forall e : exn, Err e <> Ok tt) by discriminate);
      (eapply X; apply K; [rewrite d204R; unfold epsR; simpl; lra|rewrite d204R; intros m [<-|[<-|[]]]; [exists 2%Z|exists 4%Z]; simpl; lra]).
  Qed.
  Lemma dmc_24 ts : dmc_ok BPositive (mkargs [Fin 2; Fin 4] (Fin 2) d204 None ts None).
  Proof. intros _. cbn [a_dmc a_delta]. rewrite x_dec_val, d204R, x_zero, x_ltb. apply rlt_false. lra. Qed.
  (** with its own times: no positive difference *)
  Lemma own_b srt w : argsort_ok srt -> b_of srt BPositive w (mkargs [Fin 2; Fin 4] (Fin 2) d204 None (Some [Fin 3; Fin 2]) None) = Ok NaN.
  Proof.
    intros Hs. set (a := mkargs _ _ _ _ _ _). destruct (C21_unweighted_nan srt w a new_obj Hs) as (o' & C & B & _).
    - reflexivity.
    - apply binned_24.
    - apply dmc_24.
    - reflexivity.
    - right. unfold a; cbn [a_delta]. rewrite d204R. unfold epsR. simpl. lra.
    - intros order (Nd & Hi & S) i j Hin. unfold a in *; cbn [a_mags a_mc a_delta a_times a_dmc] in *.
      assert (L2 : forall q, In q order -> (q < 2)%nat).
      { intros q Hq. apply Hi in Hq. destruct Hq as (m & E & _). change 2%nat with (length [Fin 2; Fin 4]). apply nth_error_Some. rewrite E. discriminate. }
      destruct (consecutive_in order (i, j) Hin) as [Ii Ij]. cbn [fst snd] in Ii, Ij. apply L2 in Ii, Ij.
      assert (NL : not_later [Fin 3; Fin 2] i j /\ i <> j).
      { clear - S Hin Nd. unfold consecutive in Hin. induction S as [|x l S IH F]; [destruct Hin|].
        destruct l as [|y l]; [destruct Hin|]. inversion Nd as [|? ? Nx Nd']; subst. cbn [tl combine] in Hin. destruct Hin as [E|Hin]; [|apply IH; assumption].
        injection E as <- <-. inversion F; subst. split; [assumption|]. intros ->. apply Nx. left. reflexivity. }
      destruct NL as [NL Nij]. rewrite x_dec_val, d204R, x_two, x_div by lra.
      destruct i as [|[|i]]; destruct j as [|[|j]]; try lia.
      + specialize (NL (Fin 3) (Fin 2) eq_refl eq_refl). cbn in NL. apply rle_true in NL. lra.
      + cbn [nth]. rewrite x_sub, x_sub, x_leb. apply rle_false. lra.
    - unfold b_of, estimate_b. rewrite C. cbn [rbind]. rewrite B. reflexivity.
  Qed.
  (** as the code uses them: the difference 4 - 2 is taken for a positive one *)
  Lemma code_b srt w : argsort_ok srt -> b_of srt BPositive w (mkargs [Fin 2; Fin 4] (Fin 2) d204 None (Some [Fin 1; Fin 3]) None) = Ok (Fin (ln 2 / ln 10)).
  Proof.
    intros Hs. set (a := mkargs _ _ _ _ _ _). rewrite b_of_run. change a with (with_times a (Some [Fin 1; Fin 3])).
    rewrite (same_out_b _ (run srt BPositive (with_times a None))).
    2:{ apply run_increasing; [exact Hs| |cbn; lia]. intros i j x y Hij Ex Ey. destruct i as [|[|i]], j as [|[|j]]; try lia; cbn in Ex, Ey; try discriminate.
        1: injection Ex as <-; injection Ey as <-; cbn; apply rle_false; lra.
        all: try (destruct i; discriminate); try (destruct j; discriminate). }
    set (a0 := with_times a None). assert (Hc : check a0 = Ok tt) by (rewrite check_binned; [reflexivity|apply binned_24]).
    unfold run. replace (is_pos BPositive && nltb (the_dmc a0) zero) with false.
    2:{ cbn [is_pos andb]. unfold the_dmc, a0, a, with_times; cbn [a_dmc a_delta]. rewrite x_dec_val, d204R, x_zero, x_ltb. symmetry. apply rlt_false. lra. }
    cbn [rbind]. rewrite Hc. cbn [rbind]. change (f_times BPositive a0) with (@Ok (option (list xr)) None). cbn [rbind].
    assert (Fm : f_mags a0 = [Fin 2; Fin 4]).
    { unfold f_mags, keep, thr, a0, a, with_times; cbn [a_mags a_mc a_delta map]. rewrite x_dec_val, d204R, x_two, x_div, x_sub by lra. rewrite !x_leb. rewrite !(proj2 (rle_true _ _)) by lra. reflexivity. }
    rewrite Fm. cbn [run_est]. unfold run_pos, ordered. cbn [rbind]. change (f_weights a0) with (@None (list xr)). cbn [option_map np_diff map2 map].
    unfold the_dmc, a0, a, with_times; cbn [a_dmc a_delta]. rewrite x_dec_val, d204R, x_two, x_div, !x_sub by lra. cbn [map]. rewrite x_leb, (proj2 (rle_true _ _)) by lra.
    rewrite x_zero, x_ltb, (proj2 (rlt_true _ _)) by lra. unfold bin_to_precision. unfold EPSILON. rewrite x_dec_val, d204R, x_lit, x_ltb. rewrite (proj2 (rlt_false _ _)) by (simpl; lra).
    cbn [rbind map compress]. rewrite bin_elem_fin by (rewrite d204R; lra). rewrite d204R. replace (4 - 2) with (IZR 2 * 1) by ring. rewrite binR_grid by lra.
    unfold mle_estimator. cbn [np_average map rbind]. rewrite x_sub. change [Fin (IZR 2 * 1 - 1)] with (map Fin [IZR 2 * 1 - 1]). rewrite x_mean by discriminate. cbn [Rsum fold_right length INR].
    rewrite x_dec_val, d204R, x_zero, x_ltb, (proj2 (rlt_true _ _)) by lra.
    replace ((IZR 2 * 1 - 1 + 0) / 1) with 1 by field. cbn [rbind rmap u_b]. f_equal. unfold beta_to_b_value. rewrite x_one, !x_div, x_add, x_ln by lra.
    rewrite x_mul, x_ofZ, x_ln by lra. rewrite x_div by (pose proof ln10_pos; lra). f_equal. replace (1 + 1 / 1) with 2 by field. field. pose proof ln10_pos; lra.
  Qed.
End Witness.
Theorem C204_differs_refuted : exists (mags ts : list xr) delta mc, length ts = length mags /\
  forall srt w, argsort_ok srt ->
  let s := sample_from mags delta mc in
  b_of srt BPositive w (mkargs s mc delta None (Some (own_times mags delta mc ts)) None) = Ok NaN /\
  b_from srt BPositive (mkbkw None (Some ts) None) w mags delta mc = Ok (Fin (ln 2 / ln 10)).
Proof.
  exists w204, t204, d204, (Fin 2). split; [reflexivity|]. intros srt w Hs s. unfold s. rewrite s204, own204. split; [apply own_b; exact Hs|].
  rewrite (C204_b_stability_refuted _ _ _ _ (mkbkw None (Some t204) None) _ _ _ _ t204) by reflexivity. rewrite s204. apply code_b. exact Hs.
Qed.
Print Assumptions C204_differs_refuted.

(** C205: with times in increasing order nothing goes wrong; they can be left out. *)
Section C205.
  Context {T : Type} {N : Num T} (srt : list T -> list nat) (k : kind) (kw : @bkwargs T) (mags : list T) (delta : dec) (ts : list T).
  Hypothesis (Hs : argsort_ok srt) (Ht : bk_times kw = Some ts) (Hl : length ts = length mags) (Hi : increasing ts).
  Definition no_times : @bkwargs T := mkbkw (bk_weights kw) None (bk_dmc kw).
  Lemma sample_length mc : (length (sample_from mags delta mc) <= length mags)%nat.
  Proof. unfold sample_from. clear. induction mags as [|m l IH]; cbn; [lia|]. destruct (nleb _ m); cbn; lia. Qed.
  Lemma estimate_no_times mc w par s n draws :
    estimate_b srt k w (with_kw (sample_from mags delta mc) mc delta kw) par s n draws = estimate_b srt k w (with_kw (sample_from mags delta mc) mc delta no_times) par s n draws.
  Proof.
    set (a := with_kw (sample_from mags delta mc) mc delta kw). assert (E : a = with_times a (Some ts)) by (unfold a, with_kw, with_times; cbn [a_mags a_mc a_delta a_weights a_dmc]; rewrite Ht; reflexivity). rewrite E.
    rewrite estimate_increasing; [reflexivity|exact Hs|exact Hi|]. unfold a, with_kw; cbn [a_mags]. pose proof (sample_length mc). lia.
  Qed.
  Lemma b_from_no_times mc w : b_from srt k kw w mags delta mc = b_from srt k no_times w mags delta mc.
  Proof. unfold b_from. rewrite estimate_no_times. reflexivity. Qed.
  Lemma b_std_no_times mc w draws : b_std_from srt k kw w draws mags delta mc = b_std_from srt k no_times w draws mags delta mc.
  Proof. unfold b_std_from. rewrite estimate_no_times. reflexivity. Qed.
End C205.
(** with_kw arguments and the times of the complete events *)
Theorem C205_same_estimate : forall T (N : Num T) srt k kw w mags delta mc ts,
  argsort_ok srt -> bk_times kw = Some ts -> length ts = length mags -> increasing ts ->
  let s := sample_from mags delta mc in
  b_from srt k kw w mags delta mc = b_of srt k w (mkargs s mc delta (bk_weights kw) (Some (own_times mags delta mc ts)) (bk_dmc kw)).
Proof.
  intros T N srt k kw w mags delta mc ts Hs Ht Hl Hi s. rewrite (b_from_no_times srt k kw mags delta ts Hs Ht Hl Hi). unfold b_of.
  set (a := mkargs s mc delta (bk_weights kw) None (bk_dmc kw)).
  change (mkargs s mc delta (bk_weights kw) (Some (own_times mags delta mc ts)) (bk_dmc kw)) with (with_times a (Some (own_times mags delta mc ts))).
  rewrite estimate_increasing; [reflexivity|exact Hs|apply own_times_increasing; assumption|]. cbn [a a_mags]. rewrite own_times_length by exact Hl. unfold s. lia.
Qed.
Print Assumptions C205_same_estimate.
Theorem C205_ks_times_in_order : forall T (N : Num T) srt k kw u e w mags delta mcs_test pp stop bv n ksl ts,
  argsort_ok srt -> bk_times kw = Some ts -> length ts = length mags -> increasing ts ->
  estimate_mc_ks srt k kw u e w mags delta mcs_test pp stop bv n ksl
  = estimate_mc_ks srt k (mkbkw (bk_weights kw) None (bk_dmc kw)) u e w mags delta mcs_test pp stop bv n ksl.
Proof.
  intros T N srt k kw u e w mags delta mcs_test pp stop bv n ksl ts Hs Ht Hl Hi. unfold estimate_mc_ks. destruct (mcs_of mags delta mcs_test) as [mcs|]; [|reflexivity]. cbn [rbind].
  destruct (match bv with None => _ | Some _ => _ end) as [[]|]; [|reflexivity]. cbn [rbind].
  destruct (if w then _ else _) as [[]|]; [|reflexivity]. cbn [rbind]. rewrite !ks_loop_run.
  replace (run_tests srt k kw u e w mags delta bv n ksl pp stop (combine (seq 0 (length mcs)) mcs))
    with (run_tests srt k (mkbkw (bk_weights kw) None (bk_dmc kw)) u e w mags delta bv n ksl pp stop (combine (seq 0 (length mcs)) mcs)); [reflexivity|].
  induction (combine (seq 0 (length mcs)) mcs) as [|q l IH]; [reflexivity|]. cbn [run_tests]. rewrite IH. unfold ks_outcome.
  rewrite (b_from_no_times srt k kw mags delta ts Hs Ht Hl Hi). reflexivity.
Qed.
Print Assumptions C205_ks_times_in_order.
Theorem C205_b_stability_times_in_order : forall T (N : Num T) srt k kw draws w mags delta mcs_test stop range ts,
  argsort_ok srt -> bk_times kw = Some ts -> length ts = length mags -> increasing ts ->
  estimate_mc_b_stability srt k kw draws w mags delta mcs_test stop range
  = estimate_mc_b_stability srt k (mkbkw (bk_weights kw) None (bk_dmc kw)) draws w mags delta mcs_test stop range.
Proof.
  intros T N srt k kw draws w mags delta mcs_test stop range ts Hs Ht Hl Hi. unfold estimate_mc_b_stability. destruct (np_arange zero range (dec_val delta)) as [ar|]; [|reflexivity]. cbn [rbind].
  destruct (stab_mcs _ _ _ _ _) as [mcs|]; [|reflexivity]. cbn [rbind]. destruct (binning_test mags delta (lit 1 15) false) as [[]|]; try reflexivity. cbn [rbind negb].
  destruct (if w then _ else _) as [[]|]; [|reflexivity]. cbn [rbind]. rewrite !stab_loop_run.
  replace (run_stab srt k kw draws w mags delta range (length ar) stop (combine (seq 0 (length mcs)) mcs))
    with (run_stab srt k (mkbkw (bk_weights kw) None (bk_dmc kw)) draws w mags delta range (length ar) stop (combine (seq 0 (length mcs)) mcs)); [reflexivity|].
  induction (combine (seq 0 (length mcs)) mcs) as [|q l IH]; [reflexivity|]. cbn [run_stab]. rewrite IH. unfold stab_outcome.
  rewrite (b_std_no_times srt k kw mags delta ts Hs Ht Hl Hi). destruct (b_std_from _ _ _ _ _ _ _ _) as [[b s]|]; [|reflexivity]. cbn [rbind].
  destruct (cutoffs _ _ _ _) as [cs|]; [|reflexivity]. cbn [rbind]. rewrite (mapM_ext (b_from srt k kw w mags delta) (b_from srt k (mkbkw (bk_weights kw) None (bk_dmc kw)) w mags delta)); [reflexivity|].
  intros c. apply (b_from_no_times srt k kw mags delta ts Hs Ht Hl Hi).
Qed.
Print Assumptions C205_b_stability_times_in_order.
(** the hypotheses *)
Example C205_case : argsort_ok xr_argsort /\ increasing [Fin 1; Fin 2; Fin 3] /\ ~ increasing t204.
Proof.
  split; [exact xr_argsort_ok|]. split.
  - intros i j x y Hij Ex Ey. destruct i as [|[|[|i]]], j as [|[|[|j]]]; try lia; cbn in Ex, Ey; try discriminate; try (destruct i; discriminate); try (destruct j; discriminate);
      injection Ex as <-; injection Ey as <-; cbn; apply rle_false; lra.
  - intros H. specialize (H 1%nat 2%nat (Fin 3) (Fin 2) ltac:(lia) eq_refl eq_refl). cbn in H. apply rle_false in H. lra.
Qed.

(** ** C206: weights and the b-value series *)
(** One weight per event: whenever there are enough events to form sub-samples, the call fails,
    because all weights are given to the estimator together with the events of one sub-sample. *)
Section C206.
  Lemma evaluate_part_weights {T} {N : Num T} srt k wn (kw : kwargs T) delta draws mags times mc sc r ws :
    argsort_ok srt -> mags <> [] -> length times = length mags -> kw_weights kw = Some ws ->
    snd (evaluate_part srt (MB k) wn kw delta draws mags times mc sc (new_estimator (MB k))) = Ok r -> length ws = length mags.
  Proof.
    intros Hs Hm Hl Hw H. unfold evaluate_part in H. destruct mags as [|m mags]; [contradiction|].
    destruct (gather (m :: mags) (srt times)) as [m'|] eqn:G1; [|discriminate]. destruct (gather times (srt times)) as [t'|] eqn:G2; [|discriminate].
    cbn [evaluate new_estimator] in H. destruct (calculate srt k wn _ new_obj) as [o' [b|]] eqn:C; [|discriminate].
    apply (calc_weights_length _ _ _ _ _ _ _ ws) in C; [|exact Hw]. rewrite C. cbn [a_mags]. rewrite (gather_length _ _ _ G1).
    destruct (Hs times) as [P _]. rewrite (Permutation_length P), seq_length. exact Hl.
  Qed.
  Lemma evaluate_all_first {T} {N : Num T} srt k wn (kw : kwargs T) delta draws mags lm times lt lmc lsc r ws :
    argsort_ok srt -> mags <> [] -> length times = length mags -> kw_weights kw = Some ws ->
    evaluate_all srt (MB k) wn kw delta draws 0 (mags :: lm) (times :: lt) lmc lsc (new_estimator (MB k)) = Ok r -> length ws = length mags.
  Proof.
    intros Hs Hm Hl Hw H. destruct lmc as [|mc lmc]; [discriminate|]. destruct lsc as [|sc lsc]; [discriminate|]. cbn [evaluate_all] in H.
    pose proof (evaluate_part_weights srt k wn kw delta (draws 0%nat) mags times mc sc) as E.
    destruct (evaluate_part _ _ _ _ _ _ _ _ _ _ _) as [e' [x|]]; [|discriminate]. cbn [snd] in E. apply (E x ws); auto.
  Qed.
End C206.
Theorem C206_refuted : forall srt cdf k wn kw draws ev delta n min_num cons ws,
  argsort_ok srt -> (0 < n)%nat -> (min_num <= n)%nat ->
  kw_weights kw = Some ws -> length ws = length ev -> (3 * n <= length (complete1 delta ev))%nat ->
  exists err, b_significant_1D srt cdf (MB k) wn kw draws (map ev_m ev) (Array (map ev_c ev)) delta (map ev_t ev) n min_num None cons = Err err.
Proof.
  intros srt cdf k wn kw draws ev delta n min_num cons ws Hs Hn Hm Hw Hl H3.
  destruct (C36_subsamples srt cdf (MB k) wn kw draws ev delta n min_num cons Hn Hm) as [_ H]. destruct (H H3) as (lmc & _ & E). cbv zeta in E. rewrite E.
  set (s := complete1 delta ev) in *.
  assert (Ls : (length s <= length ev)%nat) by (unfold s, complete1; generalize (fun e : event1 => nleb (nsub (ev_c e) (Fin (decR delta / 2))) (ev_m e)); intros f; clear; induction ev as [|x l IH]; cbn; [lia|]; destruct (f x); cbn; lia).
  match goal with |- context [mapM ?f (seq 0 n)] => destruct (mapM f (seq 0 n)) as [acs|err] eqn:Em end; [|exists err; reflexivity]. exfalso.
  destruct (mapM_all _ _ _ Em 0%nat) as (y & Ey); [apply in_seq; lia|]. unfold ac_one, values_from_partitioning in Ey.
  assert (St : exists l, starts n (length s) 0 = 0%nat :: l).
  { unfold starts. replace (length s - 0)%nat with (length s) by lia. assert (Q : (1 <= length s / n)%nat) by (apply Nat.div_le_lower_bound; lia).
    destruct (length s / n)%nat as [|q]; [lia|]. cbn [seq map]. eexists. f_equal. }
  destruct St as (l & St). rewrite St in Ey. cbn [map] in Ey. cbn [rbind] in Ey.
  destruct (negb _); [discriminate|]. destruct (if (_ =? length (lmc 0%nat))%nat then _ else _) as [lm|]; [|discriminate]. cbn [rbind] in Ey.
  destruct (evaluate_all _ _ _ _ _ _ _ _ _ _ _ _) as [r|] eqn:Ea; [|discriminate].
  assert (W : length (window n s 0) = n) by (unfold window; rewrite skipn_O, firstn_length; lia).
  apply evaluate_all_first with (ws := ws) in Ea; [|exact Hs| |rewrite !map_length; reflexivity|exact Hw].
  - rewrite map_length, W in Ea. lia.
  - intros X. apply (f_equal (@length _)) in X. rewrite map_length, W in X. cbn in X. lia.
Qed.
Print Assumptions C206_refuted.
(** *** Non-vacuity *)
(** six events, sub-samples of two, one weight each *)
Example C206_case : exists ev ws (kw : kwargs xr), kw_weights kw = Some ws /\ length ws = length ev /\ (3 * 2 <= length (complete1 (mkdec 1 0) ev))%nat.
Proof.
  exists (repeat (Fin 2, Fin 0, Fin 1) 6), (repeat (Fin 1) 6), (mkkw None None None (Some (repeat (Fin 1) 6))). split; [reflexivity|]. split; [reflexivity|].
  unfold complete1. cbn [repeat filter]. unfold ev_c, ev_m; cbn [fst snd]. rewrite x_sub, x_leb, decR1, (proj2 (rle_true _ _)) by lra. cbn. lia.
Qed.
(** three events with weights, tested at magnitude 2 although one event is smaller; and at
    magnitude 1, where all events are complete *)
Example C203_case :
  bk_weights (mkbkw (Some [Fin 1; Fin 1; Fin 1]) None None) = Some [Fin 1; Fin 1; Fin 1] /\ mcs_of w204 d204 (Some [Fin 2]) = Ok [Fin 2] /\
  In (Fin 1) w204 /\ complete_at d204 (Fin 2) (Fin 1) = false /\ (forall m, In m w204 -> complete_at d204 (Fin 1) m = true).
Proof.
  split; [reflexivity|]. split; [reflexivity|]. split; [left; reflexivity|]. unfold complete_at. rewrite x_dec_val, d204R, x_two, x_div, !x_sub by lra. split.
  - rewrite x_leb. apply rle_false. lra.
  - intros m [<-|[<-|[<-|[]]]]; rewrite x_leb; apply rle_true; lra.
Qed.
