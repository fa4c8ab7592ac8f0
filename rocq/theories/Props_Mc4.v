(** * C45 (values and tested magnitudes), C88-C91: estimate_mc_b_stability *)
From Coq Require Import ZArith List Bool Lia Reals Lra Floats.
From Verif Require Import Base Num XR FloatInst RList SortLib Binning_model Spec_Binning Binning_proofs BinTest_proofs Fmd_proofs Props_Binning BValue_model BValue_run BValue_proofs Props_BValue2 Simulate_model Spec_BValue Mc_model Spec_Mc Props_Mc Props_Mc2 Props_Mc3 Tests_BValue Tests_Mc.
Import ListNotations.
Open Scope R_scope.

Lemma np_max_is (xs : list R) hi : is_max hi xs -> np_max (map Fin xs) = Ok (Fin hi).
Proof.
  intros [Hin Hmax]. destruct xs as [|x xs]; [destruct Hin|]. cbn [map np_max]. rewrite x_amax. do 2 f_equal.
  apply Rle_antisym; [apply Hmax, Rmaxl_in|apply Rmaxl_ge; exact Hin].
Qed.
Lemma np_min_is (xs : list R) lo : is_min lo xs -> np_min (map Fin xs) = Ok (Fin lo).
Proof.
  intros [Hin Hmin]. destruct xs as [|x xs]; [destruct Hin|]. cbn [map np_min]. rewrite x_amin. do 2 f_equal.
  apply Rle_antisym; [apply Rminl_le; exact Hin|apply Hmin, Rminl_in].
Qed.
Lemma filter_all {A} (f : A -> bool) l : (forall x, In x l -> f x = true) -> filter f l = l.
Proof. induction l as [|a l IH]; intros H; [reflexivity|]. cbn. rewrite H by (left; reflexivity). f_equal. apply IH. intros; apply H; right; assumption. Qed.
Lemma mapM_length {A B} (f : A -> res B) l r : mapM f l = Ok r -> length r = length l.
Proof.
  revert r. induction l as [|a l IH]; intros r H; cbn in H; [injection H as <-; reflexivity|]. destruct (f a); [|discriminate]. cbn in H. destruct (mapM f l) as [bs|]; [|discriminate]. cbn in H. injection H as <-.
  cbn. f_equal. apply IH. reflexivity.
Qed.
Lemma cutoffs_grid xs delta lo K hi : 0 < decR delta -> is_max hi xs -> IZR (lo + Z.of_nat K - 1) * decR delta <= hi ->
  cutoffs (map Fin xs) delta (Fin (INR K * decR delta)) (Fin (IZR lo * decR delta)) = Ok (map Fin (grid (decR delta) lo K)).
Proof.
  intros Hd Hm Hk. unfold cutoffs. rewrite x_add, x_dec_val.
  replace (IZR lo * decR delta + INR K * decR delta) with (IZR (lo + Z.of_nat K) * decR delta) by (rewrite plus_IZR, INR_IZR_INZ; ring).
  rewrite arange_exact by exact Hd. cbn [rbind]. rewrite (np_max_is xs hi Hm). cbn [rbind]. f_equal. apply filter_all. intros x Hx. apply in_map_iff in Hx. destruct Hx as (y & <- & Hy).
  apply grid_in in Hy. destruct Hy as (j & Hj & ->). rewrite x_leb. apply rle_true. eapply Rle_trans; [|exact Hk]. apply Rmult_le_compat_r; [lra|]. apply IZR_le. lia.
Qed.
Lemma steps_exact delta K : 0 < decR delta -> exists ar, np_arange (zero : xr) (Fin (INR K * decR delta)) (dec_val delta) = Ok ar /\ length ar = K.
Proof.
  intros Hd. exists (map Fin (grid (decR delta) 0 K)). rewrite map_length, grid_length. split; [|reflexivity].
  rewrite <- arange_exact by exact Hd. rewrite x_dec_val, x_zero. f_equal; f_equal; rewrite ?INR_IZR_INZ; cbn [Z.add]; lra.
Qed.

(** The number compared with 1: if the stability range is [K] bins, the tested magnitude is on
    the grid and the range does not exceed the largest event, it is the distance, in units of
    the uncertainty at this magnitude, between the b-value at this magnitude and the average of
    the K b-values at this and the next K-1 magnitudes. *)
Theorem C45_value : forall srt k kw draws w xs delta lo K hi i,
  0 < decR delta -> is_max hi xs -> IZR (lo + Z.of_nat K - 1) * decR delta <= hi ->
  let mags := map Fin xs in let mc := Fin (IZR lo * decR delta) in
  let next := map (fun j => Fin (IZR (lo + Z.of_nat j) * decR delta)) (seq 0 K) in
  stab_outcome srt k kw draws w mags delta (Fin (INR K * decR delta)) K (i, mc)
  = (let? (b, s) := b_std_from srt k kw w (draws i) mags delta mc in
     let? bs := mapM (b_from srt k kw w mags delta) next in
     Ok (mc, (b, ndiv (nabs (nsub (nmean bs) b)) s))).
Proof.
  intros srt k kw draws w xs delta lo K hi i Hd Hm Hk mags mc next. unfold stab_outcome. cbn [fst snd]. unfold mags, mc.
  destruct (b_std_from _ _ _ _ _ _ _ _) as [[b s]|]; [|reflexivity]. cbn [rbind]. rewrite (cutoffs_grid xs delta lo K hi Hd Hm Hk). cbn [rbind].
  unfold grid. rewrite map_map. fold next. destruct (mapM _ next) as [bs|] eqn:E; [|reflexivity]. cbn [rbind].
  assert (L : length bs = K). { apply mapM_length in E. unfold next in E. rewrite map_length, seq_length in E. exact E. }
  unfold nmean. rewrite L. reflexivity.
Qed.
Print Assumptions C45_value.

(** The tested magnitudes: of the given ones, in the given order, those whose range does not
    exceed the largest event (ValueError if there is none) ... *)
Theorem C45_given_magnitudes : forall xs delta rg steps cs hi, is_max hi xs ->
  let l := filter (fun c => rle (c + rg) hi) cs in
  stab_mcs (map Fin xs) delta (Fin rg) steps (Some (map Fin cs)) = if (length l =? 0)%nat then Err ValueError else Ok (map Fin l).
Proof.
  intros xs delta rg steps cs hi Hm l. unfold stab_mcs. rewrite (np_max_is xs hi Hm). cbn [rbind].
  assert (E : filter (fun c : xr => nleb (nadd c (Fin rg)) (Fin hi)) (map Fin cs) = map Fin l).
  { unfold l. clear. induction cs as [|c cs IH]; [reflexivity|]. cbn [map filter]. rewrite x_add, x_leb. destruct (rle (c + rg) hi); cbn [map]; rewrite IH; reflexivity. }
  rewrite E, map_length. destruct (length l); reflexivity.
Qed.
Print Assumptions C45_given_magnitudes.
Lemma firstn_seq a n m : (m <= n)%nat -> firstn m (seq a n) = seq a m.
Proof. revert a m. induction n as [|n IH]; intros a [|m] H; try reflexivity; try lia. cbn. f_equal. apply IH. lia. Qed.
Lemma firstn_grid d lo n m : (m <= n)%nat -> firstn m (grid d lo n) = grid d lo m.
Proof. intros H. unfold grid. rewrite firstn_map, firstn_seq by exact H. reflexivity. Qed.
Lemma mcs_default xs delta lo m : epsR <= decR delta -> is_min (IZR lo * decR delta) xs -> is_max (IZR (lo + Z.of_nat m) * decR delta) xs ->
  forall T (f : list xr -> res T), (let? lo := np_min (map Fin xs) in let? hi := np_max (map Fin xs) in let? ar := np_arange lo hi (dec_val delta) in let? l := bin_to_precision (Some ar) delta in f l)
  = f (map Fin (grid (decR delta) lo m)).
Proof.
  intros He Hmin Hmax T f. pose proof (C42_default_magnitudes xs delta lo m He Hmin Hmax) as H. unfold mcs_of in H.
  destruct (np_min _) as [a|]; [|discriminate]. cbn [rbind] in *. destruct (np_max _) as [b|]; [|discriminate]. cbn [rbind] in *. destruct (np_arange a b _) as [ar|]; [|discriminate]. cbn [rbind] in *. rewrite H. reflexivity.
Qed.
(** ... by default all grid values from the smallest event on whose range ends at the largest
    event or before (ValueError if the data span no more than the range). *)
Theorem C45_default_magnitudes : forall xs delta lo m K, epsR <= decR delta -> (2 <= K)%nat ->
  is_min (IZR lo * decR delta) xs -> is_max (IZR (lo + Z.of_nat m) * decR delta) xs ->
  stab_mcs (map Fin xs) delta (Fin (INR K * decR delta)) K None
  = if (m <=? K)%nat then Err ValueError else Ok (map Fin (grid (decR delta) lo (m - K + 1))).
Proof.
  intros xs delta lo m K He HK Hmin Hmax. unfold stab_mcs. rewrite (mcs_default xs delta lo m He Hmin Hmax). rewrite map_length, grid_length.
  destruct (Nat.leb_spec m K); [reflexivity|]. f_equal. unfold upto. rewrite map_length, grid_length, (proj2 (Z.ltb_lt _ _)) by lia.
  rewrite firstn_map. f_equal. replace (Z.to_nat (Z.of_nat m + (- Z.of_nat K + 1))) with (m - K + 1)%nat by lia. apply firstn_grid. lia.
Qed.
Print Assumptions C45_default_magnitudes.

(** A complete Gutenberg-Richter catalogue in doubles (magnitudes lo/10, (lo+1)/10, ... with the
    frequencies 60, 48, ...); delta_m = 0.1, stability range 0.5. *)
Definition counts22 : list nat := [60;48;38;30;24;19;15;12;9;8;6;5;4;3;2;2;1;1;1;1;1;1]%nat.
Definition catalogue (lo : Z) : list float := concat (map (fun p => repeat (fl (lo + Z.of_nat (fst p)) 1) (snd p)) (combine (seq 0 22) counts22)).
Definition stab_f w mags mcs stop := estimate_mc_b_stability asort Classic no_kw (fun _ => []) w mags d01 mcs stop (fl 5 1).
Definition diff_of (t : float * (float * float)) : float := snd (snd t).
(* the hypotheses of C45_tested are met: 0.8 is tested and stable *)
Example C45_example : exists r b d0 d1, stab_f true (catalogue 6) (Some [fl 30 1; fl 6 1; fl 8 1; fl 9 1]) true = Ok r /\ st_mc r = Some 0.8%float /\ st_b r = Some b /\ map diff_of (st_tested r) = [d0; d1]
  /\ PrimFloat.leb d0 1%float = false /\ PrimFloat.leb d1 1%float = true.
Proof. eexists _, _, _, _. vm_compute. repeat split. Qed.
(* the hypotheses of C45_value and C45_default_magnitudes are met *)
Example C45_grid_example : is_min (IZR 1 * 1) [1;2;5;3] /\ is_max (IZR (1 + Z.of_nat 4) * 1) [1;2;5;3] /\ IZR (1 + Z.of_nat 3 - 1) * 1 <= IZR (1 + Z.of_nat 4) * 1.
Proof.
  repeat split; cbn; try lra; try (left; lra); try (right; right; left; lra); intros v Hv; repeat destruct Hv as [<-|Hv]; try lra; destruct Hv.
Qed.

(** ** C88: a stability range of one bin *)
(** With the default magnitudes and a range of one bin no magnitude is tested: the result is
    None for every catalogue, and with warnings switched on it is a ValueError. *)
Theorem C88_one_step_range_refuted : forall srt k kw draws xs delta lo m stop, epsR <= decR delta -> (2 <= m)%nat ->
  is_min (IZR lo * decR delta) xs -> is_max (IZR (lo + Z.of_nat m) * decR delta) xs ->
  binning_test (map Fin xs) delta (lit 1 15) false = Ok true ->
  estimate_mc_b_stability srt k kw draws true (map Fin xs) delta None stop (Fin (decR delta)) = Err ValueError /\
  estimate_mc_b_stability srt k kw draws false (map Fin xs) delta None stop (Fin (decR delta)) = Ok (mkstab None None []).
Proof.
  intros srt k kw draws xs delta lo m stop He Hm Hmin Hmax Hbt. pose proof epsR_bounds. assert (Hd : 0 < decR delta) by lra.
  destruct (steps_exact delta 1 Hd) as (ar & Ear & L). cbn [INR] in Ear. rewrite Rmult_1_l in Ear.
  unfold estimate_mc_b_stability. rewrite Ear. cbn [rbind]. rewrite L. unfold stab_mcs. rewrite (mcs_default xs delta lo m He Hmin Hmax), map_length, grid_length.
  rewrite (proj2 (Nat.leb_gt _ _)) by lia. cbn [rbind]. rewrite Hbt. cbn [rbind negb]. split; reflexivity.
Qed.
Print Assumptions C88_one_step_range_refuted.
Example C88_hypotheses_met : let mags := fl1 [1;2;3;1;2;1]%Z in
  estimate_mc_b_stability asort Classic no_kw (fun _ => []) true mags d01 None true (fl 1 1) = Err ValueError /\
  estimate_mc_b_stability asort Classic no_kw (fun _ => []) false mags d01 None true (fl 1 1) = Ok (mkstab None None []).
Proof. split; vm_compute; reflexivity. Qed.

(** ** C89: a completeness magnitude of 0 *)
(** the catalogue from 0.0 is stable at 0.0, with its b-value reported, but the magnitude is None *)
Theorem C89_zero_is_none_refuted : exists r b d, stab_f true (catalogue 0) (Some [fl 0 0]) true = Ok r /\
  st_tested r = [(0%float, (b, d))] /\ PrimFloat.leb d 1%float = true /\ st_b r = Some b /\ st_mc r = None.
Proof. eexists _, _, _. vm_compute. repeat split. Qed.
Print Assumptions C89_zero_is_none_refuted.
(** In general: whenever the best magnitude is 0. *)
Theorem C89_always_refuted : forall srt k kw draws w mags delta mcs_test stop range r c b,
  estimate_mc_b_stability (T := xr) srt k kw draws w mags delta mcs_test stop range = Ok r ->
  choose [] None (st_tested r) = Some (c, b) -> c = Fin 0 -> st_mc r = None /\ st_b r = Some b.
Proof.
  intros srt k kw draws w mags delta mcs_test stop range r c b H Hc ->. apply b_stability_ok in H. destruct H as (_ & _ & _ & _ & _ & Eb & _ & Es). specialize (Es _ _ Hc).
  rewrite x_zero, x_eqb in Es. rewrite (proj2 (req_true 0 0)) in Es by reflexivity. rewrite Eb, Hc. split; [exact Es|reflexivity].
Qed.
Print Assumptions C89_always_refuted.

(** ** C90: an undefined first difference *)
(** With the single event 3.5 above 3.0 the first difference is NaN; the second magnitude, 0.8,
    is stable but is not returned, with and without stop_when_passed. *)
Theorem C90_nan_first_refuted : forall stop, exists r c b d t0, stab_f true (fl 35 1 :: catalogue 6) (Some [fl 30 1; fl 8 1]) stop = Ok r /\
  st_tested r = [t0; (c, (b, d))] /\ PrimFloat.leb d 1%float = true /\ PrimFloat.is_nan (diff_of t0) = true /\ st_b r = None /\ st_mc r = None.
Proof. intros [|]; eexists _, _, _, _, _; vm_compute; repeat split. Qed.
Print Assumptions C90_nan_first_refuted.

(** In general, in every arithmetic: if the first difference is unordered (NaN: nothing is smaller
    than it or equal to it), no magnitude is returned, whatever the later ones are. *)
Theorem C90_always_refuted : forall T (N : Num T) srt k kw draws w mags delta mcs_test stop range (r : stab_result T) t0 ts,
  estimate_mc_b_stability srt k kw draws w mags delta mcs_test stop range = Ok r -> st_tested r = t0 :: ts ->
  (forall x, nltb x (snd (snd t0)) = false) -> (forall x, neqb x (snd (snd t0)) = false) -> st_mc r = None /\ st_b r = None.
Proof.
  intros T N srt k kw draws w mags delta mcs_test stop range r [c0 [b0 d0]] ts H Et Hl He. cbn [snd] in *.
  apply b_stability_ok in H. destruct H as (_ & _ & _ & _ & _ & Eb & En & _).
  assert (P : forall l, pymin d0 l = d0) by (induction l as [|y l IH]; [reflexivity|]; unfold pymin in *; cbn [fold_left]; rewrite Hl; exact IH).
  assert (K : forall us l, choose (d0 :: l) None us = None).
  { induction us as [|[c [b d]] us IH]; intros l; [reflexivity|]. cbn [choose app pymin_all]. rewrite P, He, andb_false_r. change (d0 :: l ++ [d]) with (d0 :: (l ++ [d])). apply IH. }
  assert (C : choose [] None (st_tested r) = None).
  { rewrite Et. cbn [choose app pymin_all]. rewrite (P []), He, andb_false_r. apply K. }
  split; [exact (En C)|]. rewrite Eb, C. reflexivity.
Qed.
Print Assumptions C90_always_refuted.
(** NaN is such a value, in exact arithmetic and in doubles; [C90_nan_first_refuted] is an instance *)
Example C90_nan : (forall x : xr, nltb x NaN = false /\ neqb x NaN = false).
Proof. intros []; split; reflexivity. Qed.

(** ** C91: the average over the range in doubles *)
(** np.arange(0.6, 0.6 + 0.5, 0.1) has 6 elements although the range has 5 steps: the sum of 6
    b-values is divided by 5, and the complete catalogue is not stable at 0.6. *)
Theorem C91_average_in_doubles_refuted : exists cs bs b s d ar rest,
  np_arange zero (fl 5 1) (dec_val d01) = Ok ar /\ length ar = 5%nat /\
  cutoffs (catalogue 6) d01 (fl 5 1) (fl 6 1) = Ok cs /\ mapM (b_from asort Classic no_kw true (catalogue 6) d01) cs = Ok bs /\ length bs = 6%nat /\
  b_std_from asort Classic no_kw true [] (catalogue 6) d01 (fl 6 1) = Ok (b, s) /\
  PrimFloat.leb (ndiv (nabs (nsub (nmean bs) b)) s) 1%float = true /\ PrimFloat.leb (ndiv (nabs (nsub (nmean (firstn 5 bs)) b)) s) 1%float = true /\
  rmap st_tested (stab_f true (catalogue 6) None true) = Ok ((fl 6 1, (b, d)) :: rest) /\ PrimFloat.leb 3%float d = true /\
  rmap st_mc (stab_f true (catalogue 6) None true) = Ok (Some (fl 7 1)).
Proof. eexists _, _, _, _, _, _, _. repeat (split; [vm_compute; reflexivity|]). vm_compute. reflexivity. Qed.
Print Assumptions C91_average_in_doubles_refuted.
