(** * C218: weights in the Kolmogorov-Smirnov test (estimate_mc.py, ks_test_gr) *)
From Coq Require Import Reals Lra Lia List ZArith Bool String Sorting Permutation.
From Verif Require Import Base Num XR RList SortLib Binning_model Spec_Binning Binning_proofs Fmd_proofs BValue_model Simulate_model Mc_model Props_Mc Props_Mc4.
Import ListNotations.
Open Scope R_scope.

(** ** the histogram as sums of weights *)
Fixpoint bins_of (edges : list xr) : list (xr -> bool) :=
  match edges with
  | lo :: ((hi :: rest) as tl) => in_bin lo hi (match rest with [] => true | _ => false end) :: bins_of tl
  | _ => []
  end.
Definition weight_in (zs : list (xr * R)) (f : xr -> bool) : R := Rsum (map snd (filter (fun p => f (fst p)) zs)).
Lemma filter_zip (f : xr -> bool) xs : forall ws, map snd (filter (fun p => f (fst p)) (zip xs (map Fin ws))) = map Fin (map snd (filter (fun p => f (fst p)) (zip xs ws))).
Proof. induction xs as [|x xs IH]; intros [|w ws]; try reflexivity. cbn [map zip filter fst]. destruct (f x); [cbn [map snd]; rewrite IH; reflexivity|apply IH]. Qed.
Lemma histogram_bins xs ws edges : histogram xs (map Fin ws) edges = map Fin (map (weight_in (zip xs ws)) (bins_of edges)).
Proof.
  induction edges as [|lo edges IH]; [reflexivity|]. destruct edges as [|hi edges]; [reflexivity|]. cbn [bins_of map].
  change (histogram xs (map Fin ws) (lo :: hi :: edges)) with (nsum (map snd (filter (fun p => in_bin lo hi (match edges with [] => true | _ => false end) (fst p)) (zip xs (map Fin ws)))) :: histogram xs (map Fin ws) (hi :: edges)).
  rewrite IH, filter_zip, x_sum. reflexivity.
Qed.
Lemma ones_fin (xs : list xr) : unit_weights xs = map Fin (map (fun _ => 1) xs).
Proof. unfold unit_weights. rewrite map_map. apply map_ext. intros. apply x_one. Qed.
(** ** the distance depends on the shares only *)
Definition share (hs : list R) : list xr := map (fun c => ndiv (Fin c) (Fin (Rsum hs))) (prefix_from 0 hs).
Definition distance_of (hs : list R) (y : list xr) : res xr :=
  if (length (share hs) =? length y)%nat then np_max (map2 (fun a b => nabs (nsub a b)) (share hs) y) else Err ValueError.
Lemma ks_distance_weights sample ws edges y : length ws = length sample -> ks_distance sample (Some (map Fin ws)) (edges, y) = distance_of (map (weight_in (zip sample ws)) (bins_of edges)) y.
Proof.
  intros H. unfold ks_distance, np_histogram. rewrite map_length, H, Nat.eqb_refl, histogram_bins. cbn [rbind]. rewrite x_sum, np_cumsum_fin, map_map. reflexivity.
Qed.
Lemma ks_distance_none sample edges y : ks_distance sample None (edges, y) = distance_of (map (weight_in (zip sample (map (fun _ => 1) sample))) (bins_of edges)) y.
Proof. unfold ks_distance, np_histogram. rewrite ones_fin, histogram_bins. cbn [rbind]. rewrite x_sum, np_cumsum_fin, map_map. reflexivity. Qed.
Lemma prefix_scale c l : forall acc, prefix_from (c * acc) (map (Rmult c) l) = map (Rmult c) (prefix_from acc l).
Proof. induction l as [|a l IH]; intros acc; [reflexivity|]. cbn [map prefix_from]. rewrite <- Rmult_plus_distr_l, IH. reflexivity. Qed.
Lemma div_scale c a s : 0 < c -> ndiv (Fin (c * a)) (Fin (c * s)) = ndiv (Fin a) (Fin s).
Proof.
  intros Hc. cbn [ndiv XR]. unfold xdiv. destruct (Req_EM_T s 0) as [->|N].
  - destruct (Req_EM_T (c * 0) 0) as [_|K]; [|exfalso; apply K; lra]. f_equal. unfold xsgn.
    destruct (Rlt_dec 0 (c * a)) as [A|A], (Rlt_dec 0 a) as [B|B]; try reflexivity.
    + exfalso. nra.
    + exfalso. apply A. apply Rmult_lt_0_compat; assumption.
    + destruct (Rlt_dec (c * a) 0) as [C|C], (Rlt_dec a 0) as [D|D]; try reflexivity; exfalso; nra.
  - destruct (Req_EM_T (c * s) 0) as [K|_]; [exfalso; apply Rmult_integral in K; destruct K; lra|]. f_equal. field. lra.
Qed.
Lemma Rsum_scale c l : Rsum (map (Rmult c) l) = c * Rsum l.
Proof. rewrite (Rsum_map_scal c (fun x => x)). rewrite map_id. reflexivity. Qed.
Lemma share_scale c l : 0 < c -> share (map (Rmult c) l) = share l.
Proof.
  intros Hc. unfold share. rewrite Rsum_scale. pose proof (prefix_scale c l 0) as P. rewrite Rmult_0_r in P. rewrite P, map_map. apply map_ext. intros a. apply div_scale. exact Hc.
Qed.
Lemma weight_scale c xs : forall ws f, weight_in (zip xs (map (Rmult c) ws)) f = c * weight_in (zip xs ws) f.
Proof.
  unfold weight_in. induction xs as [|x xs IH]; intros [|w ws] f; cbn [map zip filter]; try (cbn; lra). cbn [fst]. destruct (f x); [cbn [map snd]; rewrite !Rsum_cons, IH; lra|apply IH].
Qed.
Lemma distance_scale c sample ws edges y : 0 < c -> length ws = length sample -> ks_distance sample (Some (map Fin (map (Rmult c) ws))) (edges, y) = ks_distance sample (Some (map Fin ws)) (edges, y).
Proof.
  intros Hc H. rewrite !ks_distance_weights by (rewrite ?map_length; exact H). unfold distance_of.
  replace (map (weight_in (zip sample (map (Rmult c) ws))) (bins_of edges)) with (map (Rmult c) (map (weight_in (zip sample ws)) (bins_of edges))); [rewrite share_scale by exact Hc; reflexivity|].
  rewrite map_map. apply map_ext. intros f. symmetry. apply weight_scale.
Qed.
Lemma distance_ones c sample edges y : 0 < c -> ks_distance sample (Some (map Fin (map (fun _ => c) sample))) (edges, y) = ks_distance sample None (edges, y).
Proof.
  intros Hc. replace (map (fun _ => c) sample) with (map (Rmult c) (map (fun _ : xr => 1) sample)) by (rewrite map_map; apply map_ext; intros; lra).
  rewrite distance_scale by (rewrite ?map_length; auto). rewrite ks_distance_weights by apply map_length. rewrite ks_distance_none. reflexivity.
Qed.
(** ** simulated samples are as long as the sample *)
Lemma simulated_length u e n b mc delta l : simulate_magnitudes_binned (T := xr) u e n b mc delta None PB = Ok l -> length l = n.
Proof.
  unfold simulate_magnitudes_binned. cbn [rbind]. unfold simulate_magnitudes, truthy. destruct (nltb zero (dec_val delta)).
  - unfold bin_to_precision. destruct (nltb (dec_val delta) EPSILON); [discriminate|]. intros E. apply Ok_inj in E. subst l. rewrite !map_length, seq_length. reflexivity.
  - intros E. apply Ok_inj in E. subst l. rewrite map_length, seq_length. reflexivity.
Qed.
Lemma mapM_ext' {A B} (f g : A -> res B) l : (forall x, f x = g x) -> mapM f l = mapM g l.
Proof. intros H. induction l as [|a l IH]; [reflexivity|]. cbn [mapM]. rewrite H, IH. reflexivity. Qed.
Lemma ks_test_ext u e w mags mc delta b n ks_ds o o' :
  (forall sample bins, length sample = length mags -> ks_distance (T := xr) sample o bins = ks_distance sample o' bins) ->
  ks_test_gr u e w mags mc delta b n ks_ds o = ks_test_gr u e w mags mc delta b n ks_ds o'.
Proof.
  intros H. unfold ks_test_gr. match goal with |- (if w then ?a else ?x) = (if w then ?a' else ?x') => assert (E : x = x') end; [|rewrite E; reflexivity].
  destruct ks_ds as [ks|].
  - destruct (np_max mags) as [top|err]; [|reflexivity]. cbn [rbind]. destruct (ks_bins _ _ _ _) as [bins|err]; [|reflexivity]. cbn [rbind]. rewrite (H mags bins eq_refl). reflexivity.
  - destruct (ks_bins _ _ _ _) as [bins|err]; [|reflexivity]. cbn [rbind].
    assert (M : mapM (fun ii => let? sim := simulate_magnitudes_binned (u ii) (e ii) (length mags) b mc delta None PB in ks_distance sim o bins) (seq 0 n)
              = mapM (fun ii => let? sim := simulate_magnitudes_binned (u ii) (e ii) (length mags) b mc delta None PB in ks_distance sim o' bins) (seq 0 n)).
    { apply mapM_ext'. intros ii. destruct (simulate_magnitudes_binned _ _ _ _ _ _ _ _) as [l|err] eqn:S; [|reflexivity]. cbn [rbind]. apply H. exact (simulated_length _ _ _ _ _ _ _ S). }
    rewrite M. clear M. match goal with |- context [mapM ?f (seq 0 n)] => destruct (mapM f (seq 0 n)) as [ks|err]; [|reflexivity] end. cbn [rbind]. rewrite (H mags bins eq_refl). reflexivity.
Qed.

(** Only the ratios of the weights matter. *)
Theorem C218_scaling : forall u e w mags mc delta b n ks_ds ws c, 0 < c -> length ws = length mags ->
  ks_test_gr (T := xr) u e w mags mc delta b n ks_ds (Some (map Fin (map (Rmult c) ws))) = ks_test_gr u e w mags mc delta b n ks_ds (Some (map Fin ws)).
Proof. intros. apply ks_test_ext. intros sample [edges y] L. apply distance_scale; [assumption|congruence]. Qed.
Print Assumptions C218_scaling.
(** Equal weights are no weights. *)
Theorem C218_equal_weights : forall u e w mags mc delta b n ks_ds c, 0 < c ->
  ks_test_gr (T := xr) u e w mags mc delta b n ks_ds (Some (repeat (Fin c) (length mags))) = ks_test_gr u e w mags mc delta b n ks_ds None.
Proof.
  intros u e w mags mc delta b n ks_ds c Hc. apply ks_test_ext. intros sample [edges y] L. rewrite <- L. replace (repeat (Fin c) (length sample)) with (map Fin (map (fun _ => c) sample)); [apply distance_ones; exact Hc|].
  clear. induction sample as [|a l IH]; [reflexivity|]. cbn [map length repeat]. rewrite IH. reflexivity.
Qed.
(** each event repeated as often as its weight says *)
Definition repeated (zs : list (R * nat)) : list R := flat_map (fun z => repeat (fst z) (snd z)) zs.
Lemma weight_repeated zs f : weight_in (zip (map Fin (repeated zs)) (map (fun _ => 1) (map Fin (repeated zs)))) f = weight_in (zip (map Fin (map fst zs)) (map (fun z => INR (snd z)) zs)) f.
Proof.
  assert (W : forall l, weight_in (zip (map Fin l) (map (fun _ => 1) (map Fin l))) f = Rsum (map (fun x => if f (Fin x) then 1 else 0) l)).
  { unfold weight_in. induction l as [|a l IH]; [reflexivity|]. cbn [map zip filter fst]. rewrite Rsum_cons. destruct (f (Fin a)); [cbn [map snd]; rewrite Rsum_cons, IH; reflexivity|rewrite IH; lra]. }
  rewrite W. unfold weight_in. induction zs as [|[x k] zs IH]; [reflexivity|]. unfold repeated in *. cbn [flat_map map zip filter fst snd]. rewrite map_app, Rsum_app, IH.
  assert (K : Rsum (map (fun x => if f (Fin x) then 1 else 0) (repeat x k)) = if f (Fin x) then INR k else 0).
  { clear. induction k as [|k IH]; [destruct (f (Fin x)); reflexivity|]. cbn [repeat map]. rewrite Rsum_cons, IH, S_INR. destruct (f (Fin x)); lra. }
  rewrite K. destruct (f (Fin x)); [cbn [map snd]; rewrite Rsum_cons; reflexivity|lra].
Qed.
Lemma repeated_in zs x : Forall (fun z => (0 < snd z)%nat) zs -> In x (repeated zs) <-> In x (map fst zs).
Proof.
  intros H. unfold repeated. rewrite in_flat_map, in_map_iff. rewrite Forall_forall in H. split.
  - intros (z & Hz & K). apply repeat_spec in K. exists z. auto.
  - intros (z & <- & Hz). exists z. split; [exact Hz|]. specialize (H z Hz). destruct (snd z); [lia|left; reflexivity].
Qed.
Lemma same_members_max a s b t : (forall x, In x (a :: s) <-> In x (b :: t)) -> np_max (map Fin (a :: s)) = np_max (map Fin (b :: t)).
Proof.
  intros H. cbn [map np_max]. rewrite !x_amax. do 2 f_equal. apply Rmaxl_ext. exact H.
Qed.
(** An event with the (whole, positive) weight k counts as k events: with given synthetic
    distances the result is the same as for the sample in which each event is repeated. *)
Theorem C218_whole_weights : forall u e w zs mc delta b n ks, Forall (fun z => (0 < snd z)%nat) zs ->
  ks_test_gr (T := xr) u e w (map Fin (map fst zs)) mc delta b n (Some ks) (Some (map Fin (map (fun z => INR (snd z)) zs)))
  = ks_test_gr u e w (map Fin (repeated zs)) mc delta b n (Some ks) None.
Proof.
  intros u e w zs mc delta b n ks H. pose proof (fun x => repeated_in zs x H) as M. unfold ks_test_gr.
  assert (U : length (np_unique (map Fin (map fst zs))) = length (np_unique (map Fin (repeated zs)))).
  { rewrite !np_unique_fin, !map_length. f_equal. apply strict_sorted_ext; try apply uniqR_sorted. intros x. rewrite !uniqR_in. symmetry. apply M. }
  rewrite U.
  assert (D : forall bins, ks_distance (map Fin (map fst zs)) (Some (map Fin (map (fun z => INR (snd z)) zs))) bins = ks_distance (map Fin (repeated zs)) None bins).
  { intros [edges y]. rewrite ks_distance_weights by (rewrite !map_length; reflexivity). rewrite ks_distance_none. f_equal. apply map_ext. intros f. symmetry. apply weight_repeated. }
  destruct zs as [|z zs]; [reflexivity|]. destruct (repeated (z :: zs)) as [|r rs] eqn:Er; [exfalso; apply (proj2 (M (fst z))); left; reflexivity|].
  assert (X : np_max (map Fin (map fst (z :: zs))) = np_max (map Fin (r :: rs))) by (cbn [map]; apply same_members_max; intros x; rewrite (M x); reflexivity).
  assert (N : exists c c', np_min (map Fin (map fst (z :: zs))) = Ok c /\ np_min (map Fin (r :: rs)) = Ok c') by (eexists; eexists; split; reflexivity).
  destruct N as (c & c' & N1 & N2). rewrite X, N1, N2. cbn [rbind].
  destruct (np_max (map Fin (r :: rs))) as [top|err]; [|reflexivity]. cbn [rbind]. destruct (ks_bins _ _ _ _) as [bins|err]; [|reflexivity]. cbn [rbind]. rewrite (D bins). reflexivity.
Qed.
Print Assumptions C218_whole_weights.
(** Weights of another length are an error, except for a one-valued sample with the warnings on
    (then the weights are not looked at). *)
Theorem C218_wrong_length : forall u e w mags mc delta b n ks_ds ws r, (w = true -> length (np_unique mags) <> 1%nat) ->
  ks_test_gr (T := xr) u e w mags mc delta b n ks_ds (Some ws) = Ok r -> length ws = length mags.
Proof.
  intros u e w mags mc delta b n ks_ds ws r Hw H. destruct (Nat.eq_dec (length ws) (length mags)) as [E|E]; [exact E|exfalso].
  assert (D : forall bins, ks_distance mags (Some ws) bins = Err ValueError).
  { intros [edges y]. unfold ks_distance, np_histogram. rewrite (proj2 (Nat.eqb_neq _ _) E). reflexivity. }
  unfold ks_test_gr in H. match type of H with (if w then _ else ?x) = _ => assert (R : x <> Ok r) end.
  { clear H. destruct ks_ds as [ks|].
    - destruct (np_max mags) as [top|err]; [|discriminate]. cbn [rbind]. destruct (ks_bins _ _ _ _) as [bins|err]; [|discriminate]. cbn [rbind]. rewrite D. discriminate.
    - cbv zeta. destruct (ks_bins _ _ _ _) as [bins|err]; [|discriminate]. cbn [rbind]. match goal with |- context [mapM ?f (seq 0 n)] => destruct (mapM f (seq 0 n)) as [ks|err]; [|discriminate] end. cbn [rbind]. rewrite D. discriminate. }
  destruct w; [|exact (R H)]. destruct (np_min mags) as [lo|err]; [|discriminate]. cbn [rbind] in H. rewrite (proj2 (Nat.eqb_neq _ _) (Hw eq_refl)) in H. exact (R H).
Qed.
Print Assumptions C218_wrong_length.
Theorem C218_one_valued : forall u e mags mc delta b n ks_ds ws, mags <> [] -> length (np_unique mags) = 1%nat ->
  ks_test_gr (T := xr) u e true mags mc delta b n ks_ds ws = Ok (Fin 0, Fin 1, []).
Proof.
  intros u e mags mc delta b n ks_ds ws Hm H. unfold ks_test_gr. destruct mags as [|m mags]; [congruence|]. cbn [np_min rbind]. rewrite (proj2 (Nat.eqb_eq _ _) H). rewrite x_one, x_zero. reflexivity.
Qed.
Print Assumptions C218_one_valued.

(** Non-negative weights: the distances lie between 0 and 1, or are NaN (no weight in the
    considered bins). *)
Lemma weight_nonneg zs f : Forall (fun p => 0 <= snd p) zs -> 0 <= weight_in zs f.
Proof.
  unfold weight_in. induction 1 as [|[x w] zs Hw _ IH]; [cbn; lra|]. cbn [filter fst]. destruct (f x); [cbn [map snd]; rewrite Rsum_cons; cbn [snd] in Hw; lra|exact IH].
Qed.
Lemma distance_of_range hs ys D : (forall h, In h hs -> 0 <= h) -> (forall y, In y ys -> 0 <= y <= 1) -> distance_of hs (map Fin ys) = Ok D ->
  D = NaN \/ exists r, D = Fin r /\ 0 <= r <= 1.
Proof.
  intros Hc Hy. unfold distance_of, share. destruct (_ =? _)%nat eqn:E; [|discriminate]. apply Nat.eqb_eq in E. rewrite !map_length, prefix_length in E. rename hs into cs.
  destruct (Req_dec (Rsum cs) 0) as [Z|Z].
  - destruct cs as [|c cs]; [destruct ys; [discriminate|discriminate]|]. destruct ys as [|y ys]; [discriminate|].
    cbn [prefix_from map map2 np_max]. intros H. apply Ok_inj in H. subst D. left. apply amax_nan.
    assert (c = 0) by (apply (Rsum_zero_all (c :: cs)); auto; left; reflexivity). subst c. rewrite Z.
    cbn. destruct (Req_EM_T 0 0); [|lra]. destruct (Rlt_dec 0 (0 + 0)); [lra|]. destruct (Rlt_dec (0 + 0) 0); [lra|]. reflexivity.
  - assert (P : 0 < Rsum cs) by (pose proof (Rsum_nonneg cs Hc); lra).
    replace (map (fun x => Fin x / Fin (Rsum cs))%num (prefix_from 0 cs)) with (map Fin (map (fun x => x / Rsum cs) (prefix_from 0 cs))).
    2:{ rewrite map_map. apply map_ext. intros x. rewrite x_div by assumption. reflexivity. }
    rewrite map2_fin. set (l := map2 _ _ ys).
    assert (L : forall z, In z l -> 0 <= z <= 1).
    { intros z Hz. apply map2_in in Hz. destruct Hz as (x & y & Hx & Hyy & ->). apply in_map_iff in Hx. destruct Hx as (s & <- & Hs).
      apply prefix_bounds in Hs; [|assumption]. apply Hy in Hyy.
      assert (0 <= s / Rsum cs <= 1).
      { split; [apply Rdiv_le_0_compat; lra|]. apply (Rmult_le_reg_r (Rsum cs)); [assumption|]. unfold Rdiv. rewrite Rmult_assoc, Rinv_l by lra. lra. }
      split; [apply Rabs_pos|]. apply Rabs_le. lra. }
    destruct l as [|z l]; [discriminate|]. cbn [map np_max]. rewrite x_amax. intros H. injection H as <-. right. eexists; split; [reflexivity|]. apply L, Rmaxl_in.
Qed.
Lemma zip_nonneg {A} (xs : list A) : forall ws, Forall (fun w => 0 <= w) ws -> Forall (fun p => 0 <= snd p) (zip xs ws).
Proof. induction xs as [|x xs IH]; intros [|w ws] H; try constructor; [exact (Forall_inv H)|apply IH; exact (Forall_inv_tail H)]. Qed.
Lemma weighted_range sample ws es ys D : Forall (fun w => 0 <= w) ws -> (forall y, In y ys -> 0 <= y <= 1) ->
  ks_distance sample (Some (map Fin ws)) (map Fin es, map Fin ys) = Ok D -> D = NaN \/ exists r, D = Fin r /\ 0 <= r <= 1.
Proof.
  intros Hw Hy H. destruct (Nat.eq_dec (length ws) (length sample)) as [L|L].
  - rewrite ks_distance_weights in H by exact L. eapply distance_of_range; [|exact Hy|exact H]. intros h Hh. apply in_map_iff in Hh. destruct Hh as (f & <- & _). apply weight_nonneg, zip_nonneg, Hw.
  - unfold ks_distance, np_histogram in H. rewrite map_length, (proj2 (Nat.eqb_neq _ _) L) in H. discriminate.
Qed.
Theorem C218_distance_between_0_and_1 : forall u e w mags mc delta b n ks_ds ws p d ks, 0 < b -> epsR <= decR delta -> Forall (fun w => 0 <= w) ws ->
  ks_test_gr u e w mags (Fin mc) delta (Fin b) n ks_ds (Some (map Fin ws)) = Ok (p, d, ks) ->
  let ok := fun x => x = NaN \/ exists r, x = Fin r /\ 0 <= r <= 1 in
  ok d /\ (ks_ds = None -> Forall ok ks) /\ (forall l, ks_ds = Some l -> ks = l \/ ks = []).
Proof.
  intros u e w mags mc delta b n ks_ds ws p d ks Hb Hd Hw H ok. unfold ks_test_gr in H.
  match type of H with (if w then _ else ?r) = _ => set (rest := r) in H end.
  assert (Hl : 0 < ln 10) by (rewrite <- ln_1; apply ln_increasing; lra).
  assert (Hbeta : b_value_to_beta (Fin b) = Fin (b * ln 10)) by (unfold b_value_to_beta; rewrite x_ofZ, x_ln, x_mul by lra; reflexivity).
  assert (Hpos : 0 < b * ln 10) by (apply Rmult_lt_0_compat; assumption).
  assert (B : forall top bins, ks_bins (Fin mc) top delta (Fin (b * ln 10)) = Ok bins -> exists es ys, bins = (map Fin es, map Fin ys) /\ forall y, In y ys -> 0 <= y <= 1).
  { intros top [ed yt] E. pose proof epsR_bounds. destruct top as [t| | |].
    - destruct (ks_bins_real _ _ _ _ _ _ Hpos Hd E) as (es & ys & -> & -> & K). exists es, ys; auto.
    - rewrite ks_bins_nonfin in E by (auto; lra). discriminate.
    - rewrite ks_bins_nonfin in E by (auto; lra). discriminate.
    - rewrite ks_bins_nonfin in E by (auto; lra). discriminate. }
  assert (F : forall bins ks0, (let? d := ks_distance mags (Some (map Fin ws)) bins in let? p := ks_p ks0 d in Ok (p, d, ks0)) = Ok (p, d, ks) -> ks_distance mags (Some (map Fin ws)) bins = Ok d /\ ks = ks0).
  { intros bins ks0. destruct (ks_distance mags (Some (map Fin ws)) bins) as [d'|]; [|discriminate]. cbn [rbind]. destruct (ks_p ks0 d'); [|discriminate]. cbn [rbind]. intros E. injection E as E1 E2 E3. subst. auto. }
  assert (R : rest = Ok (p, d, ks) -> ok d /\ (ks_ds = None -> Forall ok ks) /\ (forall l, ks_ds = Some l -> ks = l)).
  { unfold rest. clear H rest. rewrite Hbeta. destruct ks_ds as [ks0|].
    - destruct (np_max mags) as [top|]; [|discriminate]. cbn [rbind]. destruct (ks_bins (Fin mc) top delta _) as [bins|] eqn:Eb; [|discriminate]. cbn [rbind]. intros E. apply F in E. destruct E as [E ->].
      destruct (B _ _ Eb) as (es & ys & -> & Hy). split; [eapply weighted_range; eassumption|]. split; [discriminate|]. intros l El. injection El as <-. reflexivity.
    - cbv zeta. destruct (ks_bins (Fin mc) _ delta _) as [bins|] eqn:Eb; [|discriminate]. cbn [rbind]. destruct (mapM _ _) as [ks0|] eqn:Em; [|discriminate]. cbn [rbind]. intros E. apply F in E. destruct E as [E ->].
      destruct (B _ _ Eb) as (es & ys & -> & Hy). split; [eapply weighted_range; eassumption|]. split; [|discriminate]. intros _.
      eapply mapM_all; [|exact Em]. cbn beta. intros x y. destruct (simulate_magnitudes_binned _ _ _ _ _ _ _ _) as [sim|]; [|discriminate]. cbn [rbind]. apply weighted_range; assumption. }
  destruct w; [|destruct (R H) as (A & C & D); auto]. destruct (np_min mags); [|discriminate]. cbn [rbind] in H.
  destruct (length (np_unique mags) =? 1)%nat; [|destruct (R H) as (A & C & D); auto]. injection H as <- <- <-.
  split; [right; exists 1; split; [reflexivity|lra]|]. split; [constructor|]. auto.
Qed.
Print Assumptions C218_distance_between_0_and_1.
(** The weights of two events, 2 and 1, and their halves: both give the result of the sample
    1, 1, 2, which exists. *)
Example C218_example : exists p D, forall ws, ws = [2; 1] \/ ws = [/ 2 * 2; / 2 * 1] ->
  ks_test_gr (fun _ _ => Fin 0) (fun _ _ => Fin 0) true (map Fin [1; 2]) (Fin (IZR 1 * decR (mkdec 1 0))) (mkdec 1 0) (Fin 1) 0 (Some [Fin (1/2); Fin 1]) (Some (map Fin ws))
  = Ok (p, Fin D, [Fin (1/2); Fin 1]).
Proof.
  destruct (C44_distance_value (fun _ _ => Fin 0) (fun _ _ => Fin 0) true [1; 1; 2] 1 1 (mkdec 1 0) 1 0 [Fin (1/2); Fin 1]) as (p & D & E & _); try (unfold decR, epsR; cbn; lra); try discriminate.
  - unfold decR; cbn. intros y [<-|[<-|[<-|[]]]]; [exists 1%Z|exists 1%Z|exists 2%Z]; split; lra || lia.
  - unfold decR; cbn. split; [right; right; left; lra|]. intros v [<-|[<-|[<-|[]]]]; lra.
  - intros _. exists 1, 2. cbn. repeat split; auto. lra.
  - exists p, D. assert (H : Forall (fun z => (0 < snd z)%nat) [(1, 2%nat); (2, 1%nat)]) by (repeat constructor; cbn; lia).
    pose proof (C218_whole_weights (fun _ _ => Fin 0) (fun _ _ => Fin 0) true [(1, 2%nat); (2, 1%nat)] (Fin (IZR 1 * decR (mkdec 1 0))) (mkdec 1 0) (Fin 1) 0 [Fin (1/2); Fin 1] H) as W.
    cbn [map fst snd repeated flat_map repeat app] in W. replace (INR 2) with 2 in W by (cbn; lra). replace (INR 1) with 1 in W by (cbn; lra).
    change (map Fin [1; 1; 2]) with [Fin 1; Fin 1; Fin 2] in E. rewrite E in W. intros ws [-> | ->]; [exact W|].
    change [/ 2 * 2; / 2 * 1] with (map (Rmult (/ 2)) [2; 1]). rewrite C218_scaling by (lra || reflexivity). exact W.
Qed.
