(** * C41, C44, C46: estimate_mc_maxc, ks_test_gr, cdf_discrete_exp *)
From Coq Require Import ZArith List Bool Lia Reals Lra Permutation Sorted.
From Verif Require Import Base Num XR RList SortLib Binning_model Spec_Binning Binning_proofs BinTest_proofs Fmd_proofs Props_Binning BValue_model Simulate_model Spec_BValue Mc_model Spec_Mc.
Import ListNotations.
Open Scope R_scope.

Lemma Rdiv_le_0_compat a b : 0 <= a -> 0 < b -> 0 <= a / b.
Proof. intros. apply Rmult_le_pos; [assumption|]. left. apply Rinv_0_lt_compat. assumption. Qed.
Lemma Ok_inj {A} (a b : A) : Ok a = Ok b -> a = b.
Proof. congruence. Qed.
(** ** C46 *)
Lemma strict_sorted_ext l1 l2 : StronglySorted Rlt l1 -> StronglySorted Rlt l2 -> (forall x, In x l1 <-> In x l2) -> l1 = l2.
Proof.
  revert l2. induction l1 as [|a l1 IH]; intros l2 S1 S2 H.
  - destruct l2 as [|b l2]; [reflexivity|]. destruct (proj2 (H b)); left; reflexivity.
  - destruct l2 as [|b l2]; [destruct (proj1 (H a)); left; reflexivity|].
    apply StronglySorted_inv in S1. apply StronglySorted_inv in S2. destruct S1 as [S1 F1], S2 as [S2 F2].
    rewrite Forall_forall in F1, F2.
    assert (E : a = b).
    { pose proof (proj1 (H a) (or_introl eq_refl)) as [Ha|Ha]; [auto|]. pose proof (proj2 (H b) (or_introl eq_refl)) as [Hb|Hb]; [auto|].
      pose proof (F1 _ Hb). pose proof (F2 _ Ha). lra. }
    subst b. f_equal. apply IH; auto. intros x. split; intros Hx.
    + destruct (proj1 (H x) (or_intror Hx)) as [<-|]; auto. pose proof (F1 _ Hx). lra.
    + destruct (proj2 (H x) (or_intror Hx)) as [<-|]; auto. pose proof (F2 _ Hx). lra.
Qed.
Lemma uniqR_strict l : StronglySorted Rlt l -> uniqR l = l.
Proof. intros S. apply strict_sorted_ext; auto using uniqR_sorted. intros x; apply uniqR_in. Qed.

(** The points are the distinct values of the sample, increasing; the value at a point is
    the probability that an exponential magnitude that starts at the lower edge of the bin of
    mc lies below the upper edge of the bin of this point. *)
Theorem C46_cdf_values : forall xs mc d beta,
  exists x, cdf_discrete_exp (map Fin xs) (Fin mc) (Fin d) (Fin beta)
            = (map Fin x, map Fin (map (fun v => exp_cdf beta (mc - d / 2) (v + d / 2)) x)) /\
  StronglySorted Rlt x /\ (forall v, In v x <-> In v xs).
Proof.
  intros. exists (uniqR xs). split; [|split; [apply uniqR_sorted|intros; apply uniqR_in]].
  unfold cdf_discrete_exp. rewrite (isort_map Fin rle) by reflexivity. rewrite np_unique_fin.
  replace (uniqR (isort rle xs)) with (uniqR xs).
  2:{ apply strict_sorted_ext; try apply uniqR_sorted. intros v. rewrite !uniqR_in.
      split; apply Permutation_in; [|apply Permutation_sym]; [apply Permutation_sym|apply Permutation_sym]; apply isort_perm || (apply Permutation_sym, isort_perm). }
  f_equal. rewrite !map_map. apply map_ext. intros v. rewrite x_one, x_opp, x_add, x_sub, x_mul, x_exp, x_sub. unfold exp_cdf. do 4 f_equal. lra.
Qed.
Print Assumptions C46_cdf_values.

Lemma cdf_pairs xs mc d beta v p : In (v, p) (combine (fst (cdf_discrete_exp (map Fin xs) (Fin mc) (Fin d) (Fin beta))) (snd (cdf_discrete_exp (map Fin xs) (Fin mc) (Fin d) (Fin beta)))) ->
  exists r, v = Fin r /\ In r xs /\ p = Fin (exp_cdf beta (mc - d / 2) (r + d / 2)).
Proof.
  destruct (C46_cdf_values xs mc d beta) as (x & -> & _ & Hi). cbn [fst snd]. intros H.
  assert (K : forall l, In (v, p) (combine (map Fin l) (map Fin (map (fun v => exp_cdf beta (mc - d / 2) (v + d / 2)) l))) -> exists r, v = Fin r /\ In r l /\ p = Fin (exp_cdf beta (mc - d / 2) (r + d / 2))).
  { induction l as [|a l IH]; [intros []|]. cbn. intros [E|E]; [injection E as <- <-; exists a; auto|]. destruct (IH E) as (r & -> & Hr & ->). exists r; auto. }
  destruct (K _ H) as (r & -> & Hr & ->). exists r. rewrite <- Hi. auto.
Qed.

(** increasing and strictly between 0 and 1 on samples that do not lie below mc *)
Theorem C46_cdf_increasing : forall xs mc d beta x1 x2 p1 p2, 0 < beta -> 0 < d -> (forall x, In x xs -> mc <= x) ->
  let out := cdf_discrete_exp (map Fin xs) (Fin mc) (Fin d) (Fin beta) in
  In (Fin x1, Fin p1) (combine (fst out) (snd out)) -> In (Fin x2, Fin p2) (combine (fst out) (snd out)) ->
  0 < p1 < 1 /\ (x1 < x2 -> p1 < p2).
Proof.
  intros xs mc d beta x1 x2 p1 p2 Hb Hd Hx out H1 H2. apply cdf_pairs in H1. apply cdf_pairs in H2.
  destruct H1 as (r1 & E1 & I1 & P1), H2 as (r2 & E2 & I2 & P2). injection E1 as <-. injection E2 as <-. injection P1 as ->. injection P2 as ->.
  specialize (Hx _ I1). unfold exp_cdf. split.
  - pose proof (exp_pos (- beta * (x1 + d / 2 - (mc - d / 2)))). split; [|lra].
    assert (exp (- beta * (x1 + d / 2 - (mc - d / 2))) < exp 0) by (apply exp_increasing; nra). rewrite exp_0 in *. lra.
  - intros H. assert (exp (- beta * (x2 + d / 2 - (mc - d / 2))) < exp (- beta * (x1 + d / 2 - (mc - d / 2)))); [|lra]. apply exp_increasing. nra.
Qed.
Print Assumptions C46_cdf_increasing.

(** tends to 1: every level below 1 is exceeded by all points that are large enough *)
Theorem C46_cdf_tends_to_one : forall mc d beta eps, 0 < beta -> 0 < eps -> exists bound, forall xs x p,
  let out := cdf_discrete_exp (map Fin xs) (Fin mc) (Fin d) (Fin beta) in
  In (Fin x, Fin p) (combine (fst out) (snd out)) -> bound < x -> 1 - eps < p.
Proof.
  intros mc d beta eps Hb He. exists (- ln eps / beta + mc - d). intros xs x p out H Hx.
  apply cdf_pairs in H. destruct H as (r & E & _ & P). injection E as <-. injection P as ->. unfold exp_cdf.
  assert (exp (- beta * (x + d / 2 - (mc - d / 2))) < eps); [|lra].
  rewrite <- (exp_ln eps) by assumption. apply exp_increasing.
  assert (- ln eps / beta < x + d / 2 - (mc - d / 2)) by lra.
  apply (Rmult_lt_compat_l beta) in H; [|assumption]. replace (beta * (- ln eps / beta)) with (- ln eps) in H by (field; lra). lra.
Qed.
Print Assumptions C46_cdf_tends_to_one.

(** steps: at the k-th bin above mc the distribution function has the step "probability of
    this bin" (and this is its value for k = 0) *)
Theorem C46_cdf_steps : forall xs mc d beta k p,
  let out := cdf_discrete_exp (map Fin xs) (Fin mc) (Fin d) (Fin beta) in
  In (Fin (mc + INR k * d), Fin p) (combine (fst out) (snd out)) ->
  match k with
  | O => p = bin_probability beta d 0
  | S j => forall q, In (Fin (mc + INR j * d), Fin q) (combine (fst out) (snd out)) -> p - q = bin_probability beta d k
  end.
Proof.
  assert (P : forall beta d k, exp (- beta * d) ^ k = exp (- beta * (INR k * d))).
  { intros beta d. induction k as [|k IH]; [cbn; rewrite Rmult_0_l, Rmult_0_r, exp_0; reflexivity|]. rewrite S_INR. cbn [pow]. rewrite IH, <- exp_plus. f_equal. lra. }
  intros xs mc d beta k p out H. apply cdf_pairs in H. destruct H as (r & E & _ & Ep). injection E as <-. injection Ep as ->.
  unfold bin_probability, exp_cdf. destruct k as [|j].
  - cbn. rewrite Rmult_1_r. do 3 f_equal. lra.
  - intros q Hq. apply cdf_pairs in Hq. destruct Hq as (r & E & _ & Ep). injection E as <-. injection Ep as ->. unfold exp_cdf.
    rewrite P. rewrite Rmult_minus_distr_r, <- exp_plus, Rmult_1_l.
    replace (- beta * (mc + INR j * d + d / 2 - (mc - d / 2))) with (- beta * (INR (S j) * d)) by (rewrite S_INR; lra).
    replace (- beta * (mc + INR (S j) * d + d / 2 - (mc - d / 2))) with (- beta * d + - beta * (INR (S j) * d)) by lra. lra.
Qed.
Print Assumptions C46_cdf_steps.
Example C46_example : let out := cdf_discrete_exp (map Fin [2; 1; 2]) (Fin 1) (Fin 1) (Fin 1) in
  In (Fin (1 + INR 1 * 1), Fin (exp_cdf 1 (1 - 1 / 2) (2 + 1 / 2))) (combine (fst out) (snd out)).
Proof.
  destruct (C46_cdf_values [2; 1; 2] 1 1 1) as (x & E & S & Hi). intros out. unfold out. rewrite E. cbn [fst snd].
  assert (x = [1; 2]) as ->.
  { apply strict_sorted_ext; auto; [repeat constructor; lra|]. intros v. rewrite Hi. cbn. tauto. }
  cbn. right; left. f_equal; f_equal; lra.
Qed.

(** ** C44: ks_test_gr *)
Lemma count_le {A} (f g : A -> bool) l : (forall x, In x l -> f x = true -> g x = true) -> (count f l <= count g l)%nat.
Proof.
  unfold count. induction l as [|a l IH]; intros H; [auto|]. cbn. specialize (IH (fun x Hx => H x (or_intror Hx))).
  destruct (f a) eqn:E; [rewrite (H a (or_introl eq_refl) E); cbn; lia|]. destruct (g a); cbn; lia.
Qed.
Lemma count_length {A} (f : A -> bool) l : (count f l <= length l)%nat.
Proof. apply filter_length_le'. Qed.
(** what ks_test_gr returns: (0, 1, []) for a one-valued sample with warnings on; otherwise the
    share of the synthetic distances that are at least the observed one *)
Theorem C44_p_value : forall u e w mags mc delta b n ks_ds weights p d ks,
  ks_test_gr (T := xr) u e w mags mc delta b n ks_ds weights = Ok (p, d, ks) ->
  (p = Fin 0 /\ d = Fin 1 /\ ks = [] /\ length (np_unique mags) = 1%nat /\ w = true) \/
  (ks <> [] /\ p = Fin (INR (count (fun x => nleb d x) ks) / INR (length ks))).
Proof.
  intros u e w mags mc delta b n ks_ds weights p d ks H. unfold ks_test_gr in H.
  assert (K : forall bins ks0, (let? d := ks_distance mags weights bins in let? p := ks_p ks0 d in Ok (p, d, ks0)) = Ok (p, d, ks) ->
     ks <> [] /\ p = Fin (INR (count (fun x => nleb d x) ks) / INR (length ks))).
  { intros bins ks0. destruct (ks_distance mags weights bins) as [d'|]; [|discriminate]. cbn [rbind].
    destruct (ks_p ks0 d') as [p'|] eqn:Ep; [|discriminate]. cbn [rbind]. intros E. injection E as E1 E2 E3. subst. unfold ks_p in Ep.
    destruct ks as [|k0 kt]; [discriminate|]. split; [discriminate|]. apply (f_equal (fun r => match r with Ok x => x | Err _ => nnan end)) in Ep. cbv beta iota in Ep.
    rewrite <- Ep, !x_ofnat, x_div; [reflexivity|]. apply not_0_INR. cbn; lia. }
  match type of H with (if w then _ else ?r) = _ => set (rest := r) in H end.
  assert (R : rest = Ok (p, d, ks) -> ks <> [] /\ p = Fin (INR (count (fun x => nleb d x) ks) / INR (length ks))).
  { unfold rest. destruct ks_ds as [ks0|].
    - destruct (np_max mags); [|discriminate]. cbn [rbind]. destruct (ks_bins mc a delta _); [|discriminate]. cbn [rbind]. apply K.
    - destruct (ks_bins mc _ delta _) as [bins|]; [|discriminate]. cbn [rbind]. destruct (mapM _ _) as [ks0|]; [|discriminate]. cbn [rbind]. apply K. }
  destruct w; [|right; auto]. destruct (np_min mags); [|discriminate]. cbn [rbind] in H.
  destruct (length (np_unique mags) =? 1)%nat eqn:E1; [|right; auto]. left. injection H as <- <- <-. apply Nat.eqb_eq in E1. auto.
Qed.
Print Assumptions C44_p_value.
(** between 0 and 1, a multiple of 1/(number of synthetic distances) *)
Theorem C44_p_between_0_and_1 : forall u e w mags mc delta b n ks_ds weights p d ks,
  ks_test_gr (T := xr) u e w mags mc delta b n ks_ds weights = Ok (p, d, ks) ->
  exists r, p = Fin r /\ 0 <= r <= 1 /\ (ks <> [] -> exists k, r = INR k / INR (length ks)).
Proof.
  intros u e w mags mc delta b n ks_ds weights p d ks H. destruct (C44_p_value _ _ _ _ _ _ _ _ _ _ _ _ _ H) as [(-> & _ & -> & _)|[Hn ->]].
  - exists 0. split; [reflexivity|]. split; [lra|congruence].
  - eexists; split; [reflexivity|]. split; [|intros _; eexists; reflexivity].
    pose proof (count_length (fun x => nleb d x) ks) as Hc. apply le_INR in Hc.
    assert (0 < INR (length ks)) by (apply lt_0_INR; destruct ks; [congruence|cbn; lia]).
    split; [apply Rdiv_le_0_compat; [apply pos_INR|assumption]|].
    apply (Rmult_le_reg_r (INR (length ks))); [assumption|]. unfold Rdiv. rewrite Rmult_assoc, Rinv_l by lra. lra.
Qed.
Print Assumptions C44_p_between_0_and_1.
(** a larger distance cannot have a larger p-value *)
Theorem C44_p_antitone : forall u e u' e' w w' mags mags' mc mc' delta delta' b b' n n' o o' ws ws' p p' d d' ks,
  ks_test_gr (T := xr) u e w mags mc delta b n o ws = Ok (Fin p, Fin d, ks) ->
  ks_test_gr (T := xr) u' e' w' mags' mc' delta' b' n' o' ws' = Ok (Fin p', Fin d', ks) ->
  d <= d' -> p' <= p.
Proof.
  intros. destruct (C44_p_value _ _ _ _ _ _ _ _ _ _ _ _ _ H) as [(E1 & _ & E & _)|[Hn E]], (C44_p_value _ _ _ _ _ _ _ _ _ _ _ _ _ H0) as [(E2 & _ & E' & _)|[Hn' E']]; try congruence.
  - injection E1 as ->. injection E2 as ->. lra.
  - injection E as ->. injection E' as ->.
    assert (0 < INR (length ks)) by (apply lt_0_INR; destruct ks; [congruence|cbn; lia]).
    apply Rmult_le_compat_r; [left; apply Rinv_0_lt_compat; assumption|]. apply le_INR, count_le.
    intros x _. destruct x; cbn; auto; try discriminate. rewrite !rle_true. lra.
Qed.
Print Assumptions C44_p_antitone.

(** *** the distance *)
Lemma histogram_nonneg xs es : exists cs, histogram xs (unit_weights xs) (map Fin es) = map Fin cs /\ (forall c, In c cs -> 0 <= c) /\ length cs = pred (length es).
Proof.
  induction es as [|a es IH]; [exists []; repeat split; auto; intros c []|]. destruct es as [|b es]; [exists []; repeat split; auto; intros c []|].
  destruct IH as (cs & E & Hc & Hl). cbn [map]. cbn [map] in E.
  change (histogram xs (unit_weights xs) (Fin a :: Fin b :: map Fin es)) with
    (nsum (map snd (filter (fun p => in_bin (Fin a) (Fin b) (match map Fin es with [] => true | _ => false end) (fst p)) (zip xs (unit_weights xs)))) :: histogram xs (unit_weights xs) (Fin b :: map Fin es)).
  rewrite E. set (f := fun p : xr * xr => in_bin (Fin a) (Fin b) (match map Fin es with [] => true | _ => false end) (fst p)).
  assert (K : map snd (filter f (zip xs (unit_weights xs))) = map Fin (map (fun _ => 1) (filter f (zip xs (unit_weights xs))))).
  { clearbody f. clear. induction xs as [|x xs IH]; [reflexivity|]. cbn [unit_weights map zip filter]. destruct (f (x, one)); [|exact IH]. cbn [map snd]. rewrite x_one. f_equal. exact IH. }
  rewrite K, x_sum. eexists (_ :: cs). split; [reflexivity|]. split; [|cbn in *; lia].
  intros c [<-|Hin]; [|auto]. rewrite Rsum_map_const, Rmult_1_r. apply pos_INR.
Qed.
Lemma prefix_length acc l : length (prefix_from acc l) = length l.
Proof. revert acc. induction l; intros; cbn; auto. Qed.
Lemma prefix_bounds l : forall acc x, (forall c, In c l -> 0 <= c) -> In x (prefix_from acc l) -> acc <= x <= acc + Rsum l.
Proof.
  induction l as [|a l IH]; intros acc x H; [intros []|]. cbn [prefix_from]. rewrite Rsum_cons.
  assert (0 <= a) by (apply H; left; reflexivity). assert (0 <= Rsum l) by (apply Rsum_nonneg; intros; apply H; right; assumption).
  intros [<-|Hx]; [lra|]. apply IH in Hx; [lra|]. intros; apply H; right; assumption.
Qed.
Lemma amax_nan l : forall x, x = NaN -> amax x l = NaN.
Proof. unfold amax. induction l; intros x ->; cbn; auto. Qed.
Lemma map2_length' {A B C} (f : A -> B -> C) l1 l2 : length l1 = length l2 -> length (map2 f l1 l2) = length l1.
Proof. revert l2. induction l1; destruct l2; cbn; intros; try lia. f_equal. apply IHl1. lia. Qed.
Lemma map2_in {A B C} (f : A -> B -> C) l1 l2 z : In z (map2 f l1 l2) -> exists x y, In x l1 /\ In y l2 /\ z = f x y.
Proof.
  revert l2. induction l1 as [|a l1 IH]; intros l2; [intros []|]. destruct l2 as [|b l2]; [intros []|]. cbn [map2 In]. intros [E|H].
  - exists a, b. auto.
  - destruct (IH _ H) as (x & y & Hx & Hy & ->). exists x, y. auto.
Qed.
Lemma map2_fin l1 l2 : map2 (fun a b : xr => nabs (nsub a b)) (map Fin l1) (map Fin l2) = map Fin (map2 (fun a b => Rabs (a - b)) l1 l2).
Proof. revert l2. induction l1; destruct l2; cbn [map map2]; try reflexivity. rewrite x_sub, x_abs, IHl1. reflexivity. Qed.
Lemma ks_distance_range sample es ys D : (forall y, In y ys -> 0 <= y <= 1) -> ks_distance sample None (map Fin es, map Fin ys) = Ok D ->
  D = NaN \/ exists r, D = Fin r /\ 0 <= r <= 1.
Proof.
  intros Hy. unfold ks_distance, np_histogram. destruct (histogram_nonneg sample es) as (cs & -> & Hc & _). cbn [rbind].
  rewrite x_sum, np_cumsum_fin, !map_map. destruct (_ =? _)%nat eqn:E; [|discriminate]. apply Nat.eqb_eq in E. rewrite !map_length, prefix_length in E.
  destruct (Req_dec (Rsum cs) 0) as [Z|Z].
  - destruct cs as [|c cs]; [destruct ys; [discriminate|discriminate]|]. destruct ys as [|y ys]; [discriminate|].
    cbn [prefix_from map map2 np_max]. intros H. apply Ok_inj in H. subst D. left. apply amax_nan.
    assert (c = 0) by (apply (Rsum_zero_all (c :: cs)); auto; left; reflexivity). subst c. rewrite Z.
    cbn. destruct (Req_EM_T 0 0); [|lra]. destruct (Rlt_dec 0 (0 + 0)); [lra|]. destruct (Rlt_dec (0 + 0) 0); [lra|]. reflexivity.
  - assert (P : 0 < Rsum cs) by (pose proof (Rsum_nonneg cs Hc); lra).
    replace (map (fun x => Fin x / Fin (Rsum cs))%num (prefix_from 0 cs)) with (map Fin (map (fun x => x / Rsum cs) (prefix_from 0 cs))).
    2:{ rewrite map_map. apply map_ext. intros x. rewrite x_div by assumption. reflexivity. }
    rewrite map2_fin. set (l := map2 _ _ ys).
    assert (L : forall z, In z l -> 0 <= z <= 1).
    { intros z Hz. apply map2_in in Hz. destruct Hz as (x & y & Hx & Hyy & ->). apply in_map_iff in Hx. destruct Hx as (s & <- & Hs).
      apply prefix_bounds in Hs; [|assumption]. apply Hy in Hyy.
      assert (0 <= s / Rsum cs <= 1).
      { split; [apply Rdiv_le_0_compat; lra|]. apply (Rmult_le_reg_r (Rsum cs)); [assumption|]. unfold Rdiv. rewrite Rmult_assoc, Rinv_l by lra. lra. }
      split; [apply Rabs_pos|]. apply Rabs_le. lra. }
    destruct l as [|z l]; [discriminate|]. cbn [map np_max]. rewrite x_amax. intros H. injection H as <-. right. eexists; split; [reflexivity|]. apply L, Rmaxl_in.
Qed.
Lemma ks_bins_real mc top delta beta edges yth : 0 < beta -> epsR <= decR delta -> ks_bins (Fin mc) (Fin top) delta (Fin beta) = Ok (edges, yth) ->
  exists es ys, edges = map Fin es /\ yth = map Fin ys /\ forall y, In y ys -> 0 <= y <= 1.
Proof.
  intros Hb Hd. pose proof epsR_bounds. unfold ks_bins. rewrite x_dec_val. rewrite x_ofZ, x_two. rewrite (x_div 3 2) by lra. rewrite x_mul, x_add. unfold np_arange.
  rewrite x_sub, x_div by lra. unfold nceilZ. rewrite x_opp, x_floorZ. rewrite x_add, x_sub.
  set (n := Z.to_nat _). cbn [rbind].
  replace (map (fun i => (Fin mc + ofnat i * Fin (mc + decR delta - mc))%num) (seq 0 n)) with (map Fin (map (fun i => mc + INR i * decR delta) (seq 0 n))).
  2:{ rewrite map_map. apply map_ext. intros i. rewrite x_ofnat, x_mul, x_add. do 2 f_equal. lra. }
  rewrite bin_to_precision_fin by assumption. cbn [rbind]. set (l := map (binR (decR delta)) _).
  assert (R : removelast (map Fin l) = map Fin (removelast l)) by (clearbody l; induction l as [|a [|b l] IH]; [reflexivity|reflexivity|]; cbn [map removelast] in *; rewrite IH; reflexivity).
  rewrite R. destruct (C46_cdf_values (removelast l) mc (decR delta) beta) as (x & E & _ & Hi). rewrite E. cbn [snd].
  intros H0. apply Ok_inj, pair_equal_spec in H0. destruct H0 as [<- <-]. exists (map (fun e => e - decR delta / 2) l). eexists. split; [|split; [reflexivity|]].
  - rewrite !map_map. apply map_ext. intros a. rewrite x_div, x_sub by lra. reflexivity.
  - intros y Hy. apply in_map_iff in Hy. destruct Hy as (v & <- & Hv). rewrite Hi in Hv.
    assert (Hv' : In v l).
    { clear -Hv. induction l as [|a [|b l] IH]; [destruct Hv|destruct Hv|]. cbn [removelast] in Hv. destruct Hv as [<-|Hv]; [left; reflexivity|right; auto]. }
    unfold l in Hv'. apply in_map_iff in Hv'. destruct Hv' as (z & <- & Hz). apply in_map_iff in Hz. destruct Hz as (i & <- & _).
    destruct (binR_near (decR delta) (mc + INR i * decR delta)) as (k & _ & Hk); [lra|].
    set (z := binR (decR delta) (mc + INR i * decR delta)) in *. pose proof (pos_INR i). unfold exp_cdf.
    assert (0 <= INR i * decR delta) by nra. assert (0 <= epsR * decR delta) by nra.
    assert (0 <= z + decR delta / 2 - (mc - decR delta / 2)) by lra.
    assert (exp (- beta * (z + decR delta / 2 - (mc - decR delta / 2))) <= 1).
    { rewrite <- exp_0. destruct (Req_dec (z + decR delta / 2 - (mc - decR delta / 2)) 0) as [->|]; [rewrite Rmult_0_r; lra|]. left. apply exp_increasing. nra. }
    pose proof (exp_pos (- beta * (z + decR delta / 2 - (mc - decR delta / 2)))). lra.
Qed.
Lemma ks_bins_nonfin mc top delta beta : 0 < decR delta -> top = PInf \/ top = NInf \/ top = NaN -> ks_bins (Fin mc) top delta beta = Err ValueError.
Proof.
  intros Hd H. unfold ks_bins. rewrite x_dec_val, x_ofZ, x_two, (x_div 3 2) by lra. rewrite x_mul. unfold np_arange.
  assert (E : nceilZ (((top + Fin (3 / 2 * decR delta)) - Fin mc) / Fin (decR delta))%num = None); [|rewrite E; reflexivity].
  unfold nceilZ. destruct H as [->|[->| ->]]; cbn [nadd nsub ndiv nopp nfloorZ XR xadd xsub xopp xdiv xfloorZ]; try reflexivity;
  destruct (Req_EM_T (decR delta) 0); [lra| |lra|]; cbn [xsgn]; destruct (Rlt_dec 0 (decR delta)); try lra; reflexivity.
Qed.
Lemma mapM_all {A B} (f : A -> res B) (P : B -> Prop) l r : (forall x y, f x = Ok y -> P y) -> mapM f l = Ok r -> Forall P r.
Proof.
  intros H. revert r. induction l as [|a l IH]; cbn; intros r E; [injection E as <-; constructor|].
  destruct (f a) as [y|] eqn:Ea; [|discriminate]. cbn in E. destruct (mapM f l) as [ys|]; [|discriminate]. cbn in E. injection E as <-. constructor; eauto.
Qed.
(** Without weights the observed distance and the synthetic distances lie between 0 and 1 (or
    are NaN: when no event falls into the considered bins). *)
Theorem C44_distance_between_0_and_1 : forall u e w mags mc delta b n ks_ds p d ks, 0 < b -> epsR <= decR delta ->
  ks_test_gr u e w mags (Fin mc) delta (Fin b) n ks_ds None = Ok (p, d, ks) ->
  let ok := fun x => x = NaN \/ exists r, x = Fin r /\ 0 <= r <= 1 in
  ok d /\ (ks_ds = None -> Forall ok ks) /\ (forall l, ks_ds = Some l -> ks = l \/ ks = []).
Proof.
  intros u e w mags mc delta b n ks_ds p d ks Hb Hd H ok. unfold ks_test_gr in H.
  match type of H with (if w then _ else ?r) = _ => set (rest := r) in H end.
  assert (Hl : 0 < ln 10) by (rewrite <- ln_1; apply ln_increasing; lra).
  assert (Hbeta : b_value_to_beta (Fin b) = Fin (b * ln 10)) by (unfold b_value_to_beta; rewrite x_ofZ, x_ln, x_mul by lra; reflexivity).
  assert (Hpos : 0 < b * ln 10) by (apply Rmult_lt_0_compat; assumption).
  assert (B : forall top bins, ks_bins (Fin mc) top delta (Fin (b * ln 10)) = Ok bins -> exists es ys, bins = (map Fin es, map Fin ys) /\ forall y, In y ys -> 0 <= y <= 1).
  { intros top [ed yt] E. pose proof epsR_bounds. destruct top as [t| | |].
    - pose proof epsR_bounds. destruct (ks_bins_real _ _ _ _ _ _ Hpos Hd E) as (es & ys & -> & -> & K). exists es, ys; auto.
    - rewrite ks_bins_nonfin in E by (auto; lra). discriminate.
    - rewrite ks_bins_nonfin in E by (auto; lra). discriminate.
    - rewrite ks_bins_nonfin in E by (auto; lra). discriminate. }
  assert (F : forall bins ks0, (let? d := ks_distance mags None bins in let? p := ks_p ks0 d in Ok (p, d, ks0)) = Ok (p, d, ks) -> ks_distance mags None bins = Ok d /\ ks = ks0).
  { intros bins ks0. destruct (ks_distance mags None bins) as [d'|]; [|discriminate]. cbn [rbind]. destruct (ks_p ks0 d'); [|discriminate]. cbn [rbind]. intros E. injection E as E1 E2 E3. subst. auto. }
  assert (R : rest = Ok (p, d, ks) -> ok d /\ (ks_ds = None -> Forall ok ks) /\ (forall l, ks_ds = Some l -> ks = l)).
  { unfold rest. clear H rest. rewrite Hbeta. destruct ks_ds as [ks0|].
    - destruct (np_max mags) as [top|]; [|discriminate]. cbn [rbind]. destruct (ks_bins (Fin mc) top delta _) as [bins|] eqn:Eb; [|discriminate]. cbn [rbind]. intros E. apply F in E. destruct E as [E ->].
      destruct (B _ _ Eb) as (es & ys & -> & Hy). split; [eapply ks_distance_range; eassumption|]. split; [discriminate|]. intros l El. injection El as <-. reflexivity.
    - cbv zeta. destruct (ks_bins (Fin mc) _ delta _) as [bins|] eqn:Eb; [|discriminate]. cbn [rbind]. destruct (mapM _ _) as [ks0|] eqn:Em; [|discriminate]. cbn [rbind]. intros E. apply F in E. destruct E as [E ->].
      destruct (B _ _ Eb) as (es & ys & -> & Hy). split; [eapply ks_distance_range; eassumption|]. split; [|discriminate]. intros _.
      eapply mapM_all; [|exact Em]. cbn beta. intros x y. destruct (simulate_magnitudes_binned _ _ _ _ _ _ _ _) as [sim|]; [|discriminate]. cbn [rbind]. apply ks_distance_range. assumption. }
  destruct w; [|destruct (R H) as (A & C & D); auto]. destruct (np_min mags); [|discriminate]. cbn [rbind] in H.
  destruct (length (np_unique mags) =? 1)%nat; [|destruct (R H) as (A & C & D); auto]. injection H as <- <- <-.
  split; [right; exists 1; split; [reflexivity|lra]|]. split; [constructor|]. auto.
Qed.
Print Assumptions C44_distance_between_0_and_1.

Lemma number_split d lo ys : 0 < d -> (forall y, In y ys -> exists k, y = IZR k * d) ->
  number_of (fun y => rlt y (IZR lo * d)) ys + number_of (fun y => req y (IZR lo * d)) ys = number_of (fun y => rle y (IZR lo * d)) ys /\
  number_of (fun y => rle y (IZR lo * d)) ys = number_of (fun y => rlt y (IZR (lo + 1) * d)) ys.
Proof.
  intros Hd. unfold number_of, count. induction ys as [|y ys IH]; intros H; [cbn; lra|].
  destruct IH as [I1 I2]; [intros z Hz; apply H; right; exact Hz|]. destruct (H y (or_introl eq_refl)) as (k & ->). cbn [filter].
  destruct (Z_lt_le_dec k lo) as [L|L]; [|destruct (Z_lt_le_dec lo k) as [G|G]].
  - assert (IZR k < IZR lo) by (apply IZR_lt; exact L). assert (IZR k * d < IZR lo * d) by (apply Rmult_lt_compat_r; assumption).
    rewrite (proj2 (rlt_true _ _)) by assumption. rewrite (proj2 (req_false _ _)) by lra. rewrite (proj2 (rle_true _ _)) by lra.
    rewrite (proj2 (rlt_true _ _)) by (rewrite plus_IZR; lra). cbn [length]. rewrite !S_INR. lra.
  - assert (IZR lo + 1 <= IZR k) by (rewrite <- plus_IZR; apply IZR_le; lia). assert ((IZR lo + 1) * d <= IZR k * d) by (apply Rmult_le_compat_r; lra).
    rewrite (proj2 (rlt_false _ _)) by lra. rewrite (proj2 (req_false _ _)) by lra. rewrite (proj2 (rle_false _ _)) by lra.
    rewrite (proj2 (rlt_false _ _)) by (rewrite plus_IZR; lra). lra.
  - assert (k = lo) by lia. subst k.
    rewrite (proj2 (rlt_false _ _)) by lra. rewrite (proj2 (req_true _ _)) by lra. rewrite (proj2 (rle_true _ _)) by lra.
    rewrite (proj2 (rlt_true _ _)) by (rewrite plus_IZR; lra). cbn [length]. rewrite !S_INR. lra.
Qed.
Lemma prefix_grid d ys n : 0 < d -> (forall y, In y ys -> exists k, y = IZR k * d) -> forall lo,
  prefix_from (number_of (fun y => rlt y (IZR lo * d)) ys) (map (fun b => number_of (fun y => req y b) ys) (grid d lo n))
  = map (fun b => number_of (fun y => rle y b) ys) (grid d lo n).
Proof.
  intros Hd H. induction n as [|n IH]; intros lo; [reflexivity|]. rewrite grid_S. cbn [map prefix_from].
  destruct (number_split d lo ys Hd H) as [A B]. rewrite A. f_equal. rewrite B. apply IH.
Qed.
Lemma grid_sorted d lo n : 0 < d -> StronglySorted Rlt (grid d lo n).
Proof.
  intros Hd. revert lo. induction n as [|n IH]; intros lo; [constructor|]. rewrite grid_S. constructor; [apply IH|].
  rewrite Forall_forall. intros y Hy. apply grid_in in Hy. destruct Hy as (k & Hk & ->).
  assert (IZR lo < IZR k) by (apply IZR_lt; lia). apply Rmult_lt_compat_r; assumption.
Qed.
Lemma number_all {A} (P : A -> bool) (l : list A) : (forall x, In x l -> P x = true) -> count P l = length l.
Proof. unfold count. induction l as [|a l IH]; intros H; [reflexivity|]. cbn. rewrite (H a (or_introl eq_refl)). cbn. f_equal. apply IH. intros x Hx. apply H. right; exact Hx. Qed.
Lemma number_none {A} (P : A -> bool) (l : list A) : (forall x, In x l -> P x = false) -> count P l = 0%nat.
Proof. unfold count. induction l as [|a l IH]; intros H; [reflexivity|]. cbn. rewrite (H a (or_introl eq_refl)). apply IH. intros x Hx. apply H. right; exact Hx. Qed.
(** For a sample on the grid, at or above mc, and given synthetic distances: the distance is the
    largest difference, over all bins from mc to the largest magnitude, between the share of
    the sample up to this bin and the Gutenberg-Richter distribution function at the upper
    edge of the bin. *)
Theorem C44_distance_value : forall u e w xs lo m delta b n ks, 0 < b -> epsR <= decR delta -> ks <> [] ->
  let d := decR delta in
  (forall y, In y xs -> exists k, y = IZR k * d /\ (lo <= k)%Z) -> is_max (IZR (lo + Z.of_nat m) * d) xs ->
  (w = true -> exists x y, In x xs /\ In y xs /\ x <> y) ->
  exists p D, ks_test_gr u e w (map Fin xs) (Fin (IZR lo * d)) delta (Fin b) n (Some ks) None = Ok (p, Fin D, ks) /\
  is_max D (map (fun c => Rabs (share_upto c xs - exp_cdf (b * ln 10) (IZR lo * d - d / 2) (c + d / 2))) (grid d lo (S m))).
Proof.
  intros u e w xs lo m delta b n ks Hb Heps Hks d Hg Hmax Hw. pose proof epsR_bounds. assert (Hd : 0 < d) by (unfold d; lra).
  assert (Hne : xs <> []) by (intros ->; destruct Hmax as [[] _]).
  assert (Hlen : 0 < INR (length xs)) by (apply lt_0_INR; destruct xs; [congruence|cbn; lia]).
  assert (Hg' : forall y, In y xs -> exists k, y = IZR k * d) by (intros y Hy; destruct (Hg y Hy) as (k & E & _); eauto).
  assert (Hlow : forall y, In y xs -> IZR lo * d <= y) by (intros y Hy; destruct (Hg y Hy) as (k & -> & L); apply Rmult_le_compat_r; [lra|apply IZR_le; exact L]).
  assert (E : exists D, ks_distance (map Fin xs) None (map Fin (map (fun e => e - d / 2) (grid d lo (S (S m)))), map Fin (map (fun c => exp_cdf (b * ln 10) (IZR lo * d - d / 2) (c + d / 2)) (grid d lo (S m)))) = Ok (Fin D) /\
    is_max D (map (fun c => Rabs (share_upto c xs - exp_cdf (b * ln 10) (IZR lo * d - d / 2) (c + d / 2))) (grid d lo (S m)))).
  { unfold ks_distance, np_histogram.
    replace (unit_weights (map Fin xs)) with (map Fin (map (fun _ => 1) xs)) by (unfold unit_weights; rewrite !map_map; reflexivity).
    rewrite histogram_grid by assumption. cbn [rbind]. rewrite x_sum, np_cumsum_fin.
    rewrite (map_ext (fun b0 => weight_of (fun y => req y b0) xs (map (fun _ => 1) xs)) (fun b0 => number_of (fun y => req y b0) xs)) by (intros; apply weight_of_unit).
    assert (T : Rsum (map (fun b0 => number_of (fun y => req y b0) xs) (grid d lo (S m))) = INR (length xs)).
    { rewrite (map_ext (fun b0 => number_of (fun y => req y b0) xs) (fun b0 => weight_of (fun y => req y b0) xs (map (fun _ => 1) xs))) by (intros; symmetry; apply weight_of_unit).
      rewrite Rsum_weights_grid; auto.
      - rewrite weight_of_all; [rewrite Rsum_map_const; lra|rewrite map_length; reflexivity|]. intros y Hy. apply rle_true. auto.
      - intros y Hy. destruct Hmax as [_ Hmax]. specialize (Hmax y Hy). replace (lo + Z.of_nat (S m))%Z with (lo + Z.of_nat m + 1)%Z by lia. rewrite (plus_IZR _ 1). lra. }
    rewrite T.
    assert (P : prefix_from 0 (map (fun b0 => number_of (fun y => req y b0) xs) (grid d lo (S m))) = map (fun b0 => number_of (fun y => rle y b0) xs) (grid d lo (S m))).
    { rewrite <- (prefix_grid d xs (S m) Hd Hg' lo). f_equal. unfold number_of. rewrite number_none; [reflexivity|]. intros y Hy. apply rlt_false. auto. }
    rewrite P. rewrite !map_map.
    replace (map (fun x => (Fin (number_of (fun y => rle y x) xs) / Fin (INR (length xs)))%num) (grid d lo (S m))) with (map Fin (map (fun c => share_upto c xs) (grid d lo (S m)))).
    2:{ rewrite map_map. apply map_ext. intros c. rewrite x_div by lra. reflexivity. }
    rewrite <- (map_map _ Fin (grid d lo (S m))). rewrite !map_length, Nat.eqb_refl. rewrite map2_fin.
    assert (M : forall l : list R, map2 (fun a b0 => Rabs (a - b0)) (map (fun c => share_upto c xs) l) (map (fun c => exp_cdf (b * ln 10) (IZR lo * d - d / 2) (c + d / 2)) l)
               = map (fun c => Rabs (share_upto c xs - exp_cdf (b * ln 10) (IZR lo * d - d / 2) (c + d / 2))) l) by (induction l as [|a l IH]; [reflexivity|]; cbn [map map2]; rewrite IH; reflexivity).
    rewrite M. rewrite grid_S. cbn [map np_max]. rewrite x_amax. eexists; split; [reflexivity|].
    split; [apply Rmaxl_in|intros v Hv; apply Rmaxl_ge; assumption]. }
  destruct E as (D & ED & HD).
  assert (Hl10 : b_value_to_beta (Fin b) = Fin (b * ln 10)) by (unfold b_value_to_beta; rewrite x_ofZ, x_ln, x_mul by lra; reflexivity).
  assert (Emax : np_max (map Fin xs) = Ok (Fin (IZR (lo + Z.of_nat m) * d))).
  { destruct xs as [|x xs]; [congruence|]. cbn [map np_max]. rewrite x_amax. do 2 f_equal.
    apply (is_max_unique _ _ (x :: xs)); [|exact Hmax]. split; [apply Rmaxl_in|intros v Hv; apply Rmaxl_ge; exact Hv]. }
  assert (Ebins : ks_bins (Fin (IZR lo * d)) (Fin (IZR (lo + Z.of_nat m) * d)) delta (Fin (b * ln 10))
    = Ok (map Fin (map (fun e => e - d / 2) (grid d lo (S (S m)))), map Fin (map (fun c => exp_cdf (b * ln 10) (IZR lo * d - d / 2) (c + d / 2)) (grid d lo (S m))))).
  { unfold ks_bins. rewrite x_dec_val. fold d. rewrite x_ofZ, x_two, (x_div 3 2) by lra. rewrite x_mul, x_add. rewrite arange_grid by assumption. cbn [rbind].
    rewrite bin_to_precision_fin by assumption. cbn [rbind]. fold d.
    assert (Eg : map (binR d) (grid d lo (S (S m))) = grid d lo (S (S m))).
    { transitivity (map (fun y => y) (grid d lo (S (S m)))); [|apply map_id].
      apply map_ext_in. intros y Hy. apply grid_in in Hy. destruct Hy as (k & _ & ->). apply binR_grid; assumption. }
    rewrite Eg. replace (removelast (map Fin (grid d lo (S (S m))))) with (map Fin (grid d lo (S m))).
    2:{ unfold grid. rewrite (seq_S (S m)), map_app, map_app. symmetry. apply removelast_last. }
    destruct (C46_cdf_values (grid d lo (S m)) (IZR lo * d) d (b * ln 10)) as (x & -> & Sx & Hx). cbn [snd].
    rewrite (strict_sorted_ext x (grid d lo (S m)) Sx (grid_sorted _ _ _ Hd) Hx). do 2 f_equal.
    rewrite !map_map. apply map_ext. intros a. rewrite x_div by lra. reflexivity. }
  unfold ks_test_gr. rewrite Hl10, Emax. cbn [rbind]. rewrite Ebins. cbn [rbind]. rewrite ED. cbn [rbind].
  assert (Ep : exists p, ks_p ks (Fin D) = Ok p) by (unfold ks_p; destruct ks; [congruence|eexists; reflexivity]).
  destruct Ep as (p & ->). cbn [rbind]. exists p, D. split; [|exact HD].
  destruct w; [|reflexivity]. destruct xs as [|x xs]; [congruence|]. cbn [map np_min]. cbn [rbind].
  replace (length (np_unique (Fin x :: map Fin xs)) =? 1)%nat with false; [reflexivity|].
  symmetry. apply Nat.eqb_neq. change (Fin x :: map Fin xs) with (map Fin (x :: xs)). rewrite np_unique_fin, map_length. intros L.
  destruct (Hw eq_refl) as (a & c & Ha & Hc & Hn). apply uniqR_in in Ha. apply uniqR_in in Hc.
  destruct (uniqR (x :: xs)) as [|z [|z' l]]; try discriminate. destruct Ha as [<-|[]], Hc as [<-|[]]. congruence.
Qed.
Print Assumptions C44_distance_value.
Example C44_example : exists p D, ks_test_gr (fun _ _ => Fin 0) (fun _ _ => Fin 0) true (map Fin [1; 2; 1]) (Fin (IZR 1 * decR (mkdec 1 0))) (mkdec 1 0) (Fin 1) 0 (Some [Fin (1/2); Fin 1]) None
  = Ok (p, Fin D, [Fin (1/2); Fin 1]).
Proof.
  destruct (C44_distance_value (fun _ _ => Fin 0) (fun _ _ => Fin 0) true [1; 2; 1] 1 1 (mkdec 1 0) 1 0 [Fin (1/2); Fin 1]) as (p & D & E & _); try (unfold decR, epsR; cbn; lra); try discriminate.
  - unfold decR; cbn. intros y [<-|[<-|[<-|[]]]]; [exists 1%Z|exists 2%Z|exists 1%Z]; split; lra || lia.
  - unfold decR; cbn. split; [right; left; lra|]. intros v [<-|[<-|[<-|[]]]]; lra.
  - intros _. exists 1, 2. cbn. repeat split; auto. lra.
  - eauto.
Qed.

(** ** C41: estimate_mc_maxc *)
Lemma argmax_from_spec l : forall best bv ii, (best < ii)%nat ->
  let i := argmax_from best (Fin bv) ii (map Fin l) in
  (i = best /\ (forall x, In x l -> x <= bv)) \/
  (exists j v, i = (ii + j)%nat /\ nth_error l j = Some v /\ bv < v /\ (forall x, In x l -> x <= v) /\ (forall j' x, (j' < j)%nat -> nth_error l j' = Some x -> x < v)).
Proof.
  induction l as [|x l IH]; intros best bv ii Hi; cbv zeta; [left; split; [reflexivity|intros x []]|].
  cbn [map argmax_from]. rewrite x_ltb. destruct (rlt bv x) eqn:E.
  - apply rlt_true in E. right. destruct (IH ii x (S ii)) as [(-> & H)|(j & v & -> & Hn & Hv & Ha & Hf)]; [lia| |].
    + exists 0%nat, x. split; [lia|]. split; [reflexivity|]. split; [assumption|]. split; [intros y [<-|Hy]; [lra|auto]|]. intros j' y Hj. lia.
    + exists (S j), v. split; [lia|]. split; [exact Hn|]. split; [lra|]. split; [intros y [<-|Hy]; [lra|auto]|].
      intros [|j'] y Hj Hy; [injection Hy as <-; exact Hv|]. apply (Hf j'); [lia|exact Hy].
  - apply rlt_false in E. destruct (IH best bv (S ii)) as [(-> & H)|(j & v & -> & Hn & Hv & Ha & Hf)]; [lia| |].
    + left. split; [reflexivity|]. intros y [<-|Hy]; auto.
    + right. exists (S j), v. split; [lia|]. split; [exact Hn|]. split; [lra|]. split; [intros y [<-|Hy]; [lra|auto]|].
      intros [|j'] y Hj Hy; [injection Hy as <-; lra|]. apply (Hf j'); [lia|exact Hy].
Qed.
Lemma np_argmax_spec l : l <> [] -> exists i v, np_argmax (map Fin l) = Ok i /\ nth_error l i = Some v /\
  (forall x, In x l -> x <= v) /\ (forall j x, (j < i)%nat -> nth_error l j = Some x -> x < v).
Proof.
  destruct l as [|a l]; [congruence|]. intros _. cbn [map np_argmax].
  destruct (argmax_from_spec l 0 a 1) as [(-> & H)|(j & v & -> & Hn & Hv & Ha & Hf)]; [lia| |].
  - exists 0%nat, a. split; [reflexivity|]. split; [reflexivity|]. split; [intros x [<-|Hx]; [lra|auto]|]. intros; lia.
  - exists (S j), v. split; [reflexivity|]. split; [exact Hn|]. split; [intros x [<-|Hx]; [lra|auto]|].
    intros [|j'] x Hj Hx; [injection Hx as <-; exact Hv|]. apply (Hf j'); [lia|exact Hx].
Qed.
(** The estimate is the correction plus the smallest of the most frequent magnitudes after
    rounding to the grid (NaN ignored). *)
Theorem C41_maxc : forall x delta corr, no_inf x -> fins x <> [] -> epsR <= decR delta ->
  exists ys c, Forall2 (near_grid (decR delta)) (fins x) ys /\ smallest_mode c ys /\ In c ys /\
  estimate_mc_maxc x delta (Fin corr) = Ok (Fin (c + corr)).
Proof.
  intros x delta corr Hi Hne He. pose proof epsR_bounds. unfold estimate_mc_maxc. rewrite filter_notnan_fins by assumption.
  destruct (C06_get_fmd_counts (fins x) delta Hne He) as (ys & lo & n & counts & HF & -> & Hmin & Hmax & Hc & Hs). cbn [rbind].
  set (d := decR delta) in *. assert (Hd : 0 < d) by (lra).
  assert (Hy : forall y, In y ys -> In y (grid d lo n)).
  { intros y Hy. assert (exists k, y = IZR k * d) as (k & ->).
    { clear -HF Hy. induction HF as [|a b l l' Hab HF IH]; [destruct Hy|]. destruct Hy as [<-|Hy]; [destruct Hab as (k & -> & _); eauto|auto]. }
    apply grid_in. exists k. split; [|reflexivity]. destruct Hmin as [_ Hmin], Hmax as [_ Hmax]. specialize (Hmin _ Hy). specialize (Hmax _ Hy).
    apply Rmult_le_reg_r in Hmin, Hmax; try assumption. apply le_IZR in Hmin, Hmax. lia. }
  assert (Hcne : counts <> []).
  { rewrite Hc. destruct n; [destruct Hmin as [Hin _]; apply Hy in Hin; destruct Hin|]. rewrite grid_S. discriminate. }
  destruct (np_argmax_spec counts Hcne) as (i & v & -> & Hn & Hall & Hfirst). cbn [rbind].
  rewrite Hc in Hn. rewrite nth_error_map in Hn. destruct (nth_error (grid d lo n) i) as [c|] eqn:Ei; [|discriminate]. cbn in Hn. injection Hn as Hv.
  rewrite nth_error_map, Ei. cbn [option_map].
  assert (Hle : forall b, occurrences b ys <= v).
  { intros b. destruct (in_dec Req_EM_T b (grid d lo n)) as [G|G].
    - apply Hall. rewrite Hc. apply in_map_iff. exists b. auto.
    - unfold occurrences, number_of. rewrite number_none; [cbn; rewrite <- Hv; apply pos_INR|]. intros y Hyy. apply req_false. intros ->. auto. }
  assert (Hpos : 0 < v).
  { destruct Hmin as [Hin _]. specialize (Hle (IZR lo * d)). unfold occurrences, number_of in Hle.
    assert (0 < count (fun y => req y (IZR lo * d)) ys)%nat; [|apply lt_0_INR in H0; lra].
    unfold count. clear -Hin. induction ys as [|y ys IH]; [destruct Hin|]. cbn. destruct (req y (IZR lo * d)) eqn:E; [cbn; lia|]. apply req_false in E. destruct Hin as [->|Hin]; [congruence|auto]. }
  exists ys, c. split; [exact HF|]. split; [|split; [|reflexivity]].
  - intros b. unfold occurrences in *. rewrite Hv. split; [apply Hle|]. intros Hb.
    destruct (in_dec Req_EM_T b (grid d lo n)) as [G|G].
    + apply In_nth_error in G. destruct G as (j & Ej). assert (Hjn : (j < n)%nat) by (rewrite <- (grid_length d lo n); apply nth_error_Some; congruence).
      assert (Hin : (i < n)%nat) by (rewrite <- (grid_length d lo n); apply nth_error_Some; congruence).
      assert (Hji : (j < i)%nat).
      { rewrite nth_error_grid in Ej, Ei by assumption. injection Ej as <-. injection Ei as <-. apply Rmult_lt_reg_r in Hb; [|assumption]. apply lt_IZR in Hb. lia. }
      apply (Hfirst j); [exact Hji|]. rewrite Hc, nth_error_map, Ej. reflexivity.
    + unfold number_of. rewrite number_none; [exact Hpos|]. intros y Hyy. apply req_false. intros ->. auto.
  - destruct (in_dec Req_EM_T c ys) as [|G]; [assumption|]. exfalso. unfold number_of in Hv. rewrite number_none in Hv; [cbn in Hv; lra|].
    intros y Hyy. apply req_false. intros ->. auto.
Qed.
Print Assumptions C41_maxc.
Lemma smallest_mode_unique ys c1 c2 : smallest_mode c1 ys -> smallest_mode c2 ys -> c1 = c2.
Proof.
  intros H1 H2. destruct (Rtotal_order c1 c2) as [L|[L|L]]; [|exact L|].
  - destruct (H2 c1) as [_ K]. specialize (K L). destruct (H1 c2) as [K' _]. lra.
  - destruct (H1 c2) as [_ K]. specialize (K L). destruct (H2 c1) as [K' _]. lra.
Qed.
Theorem C41_maxc_order_and_nan : forall x x' delta corr, no_inf x -> no_inf x' -> Permutation (fins x) (fins x') -> epsR <= decR delta ->
  estimate_mc_maxc x delta (Fin corr) = estimate_mc_maxc x' delta (Fin corr).
Proof.
  intros x x' delta corr Hi Hi' HP He. destruct (fins x) as [|a t] eqn:E.
  - apply Permutation_nil in HP. unfold estimate_mc_maxc. rewrite !filter_notnan_fins, E, HP by assumption. reflexivity.
  - rewrite <- E in HP. destruct (C41_maxc x delta corr Hi) as (ys & c & HF & Hm & _ & ->); [congruence|assumption|].
    assert (fins x' <> []) by (intros K; rewrite K, E in HP; apply Permutation_sym, Permutation_nil in HP; discriminate).
    destruct (C41_maxc x' delta corr Hi' H He) as (ys' & c' & HF' & Hm' & _ & ->). do 3 f_equal.
    apply (smallest_mode_unique ys); [exact Hm|]. pose proof epsR_bounds.
    assert (K : forall l r, Forall2 (near_grid (decR delta)) l r -> r = map (binR (decR delta)) l).
    { induction 1 as [|p q l r Hpq _ IH]; [reflexivity|]. cbn. rewrite IH. f_equal. apply (near_grid_unique (decR delta) p); [lra|exact Hpq|apply binR_near; lra]. }
    apply K in HF, HF'. subst ys ys'. assert (P2 := Permutation_map (binR (decR delta)) HP).
    intros b. specialize (Hm' b). unfold occurrences, number_of, count in *.
    assert (Q : forall z, length (filter (fun y => req y z) (map (binR (decR delta)) (fins x))) = length (filter (fun y => req y z) (map (binR (decR delta)) (fins x')))).
    { intros z. apply Permutation_length, filter_perm, P2. }
    rewrite !Q. exact Hm'.
Qed.
Print Assumptions C41_maxc_order_and_nan.
Theorem C41_maxc_errors : forall T (N : Num T) x delta (corr : T), 
  (forall v, In v x -> nisnan v = true) \/ nleb (dec_val delta) zero = true -> estimate_mc_maxc x delta corr = Err ValueError.
Proof.
  intros T N x delta corr [H|H]; unfold estimate_mc_maxc.
  - replace (filter (fun m => negb (nisnan m)) x) with (@nil T).
    + rewrite (proj1 (proj2 (C07_get_fmd_rejects T N [] delta None Center))). reflexivity.
    + symmetry. induction x as [|a x IH]; [reflexivity|]. cbn. rewrite (H a (or_introl eq_refl)). cbn. apply IH. intros v Hv. apply H. right; exact Hv.
  - rewrite (proj1 (C07_get_fmd_rejects T N _ delta None Center) H). reflexivity.
Qed.
Print Assumptions C41_maxc_errors.
Example C41_example : exists c, estimate_mc_maxc [Fin 2; NaN; Fin 1; Fin 2] (mkdec 1 0) (Fin (2 / 10)) = Ok (Fin (c + 2 / 10)).
Proof.
  destruct (C41_maxc [Fin 2; NaN; Fin 1; Fin 2] (mkdec 1 0) (2 / 10)) as (_ & c & _ & _ & _ & E); [|discriminate|unfold decR, epsR; cbn; lra|eauto].
  intros v [<-|[<-|[<-|[<-|[]]]]]; split; discriminate.
Qed.
