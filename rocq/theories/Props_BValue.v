(** * Property theorems about the b-value estimators (C09-C17, C23-C25, C27, C29)

    [calculate srt k w a o] is one call of [calculate] of the estimator class [k] with
    arguments [a] on the object [o]; [w] is the global 'warnings' option and [srt] is
    np.argsort (used by the positive classes only).  [argsg true ev mc delta] are the
    arguments for a list of (magnitude, weight) events with weights,
    [argsg false ev mc delta] the same call without weights. *)
From Coq Require Import Reals Lra List Permutation Lia Bool ZArith Sorted.
From Verif Require Import Base Num XR RList SortLib Binning_model Spec_Binning Binning_proofs BinTest_proofs
  BValue_model BValue_run Spec_BValue BValue_real Likelihood BValue_proofs.
Import ListNotations.
Open Scope R_scope.

(** ** C09: for every arithmetic *)
Theorem C09_used_events : forall T (N : Num T) srt k w (a : @args T) o o' b,
  k = Classic \/ k = Utsu -> calculate srt k w a o = (o', Ok b) ->
  exists idx ms, o_idx o' = Some idx /\ o_mags o' = Some ms /\
    picks (fun m => nleb (nsub (a_mc a) (ndiv (dec_val (a_delta a)) two)) m = true) (a_mags a) idx ms /\
    match a_weights a with
    | None => o_weights o' = None
    | Some ws => exists ws', o_weights o' = Some ws' /\ at_positions ws idx ws'
    end.
Proof.
  intros T N srt k w a o o' b Hk E. apply calculate_inv in E. destruct E as (u & R & -> & F).
  assert (Hp : is_pos k = false) by (destruct Hk as [->| ->]; reflexivity).
  apply run_cases in R. destruct R as [Hc R]. specialize (R Hp). destruct R as (R1 & R2 & R3).
  destruct F as (F1 & _ & _ & F4 & F5 & _). exists (f_idx a), (f_mags a).
  split; [congruence|]. split; [congruence|]. split; [apply picks_keep|].
  apply check_len in Hc. rewrite F4, R3. unfold f_weights.
  destruct (a_weights a) as [ws|] eqn:Ew; [|reflexivity].
  exists (compress (keep a) ws). split; [reflexivity|]. apply weights_keep; assumption.
Qed.
Print Assumptions C09_used_events.
(** a NaN magnitude is never at or above the threshold *)
Theorem C09_nan_never_counts : forall (mc : xr) delta, nleb (nsub mc (ndiv (dec_val delta) two)) NaN = false.
Proof. intros mc delta. cbn. destruct (xsub _ _); reflexivity. Qed.
Print Assumptions C09_nan_never_counts.

(** a concrete run used for non-vacuity: magnitudes 1, 2, NaN, 0 with mc = 1, delta_m = 1 *)
Definition ex_srt : list xr -> list nat := fun l => seq 0 (length l).
Definition ex_ev : list event := [(Fin 1, 1); (Fin 2, 3); (NaN, 1); (Fin 0, 2)].
Lemma ex_no_inf : no_inf (map fst ex_ev).
Proof. intros v [<-|[<-|[<-|[<-|[]]]]]; split; discriminate. Qed.
Lemma decR1 : decR (mkdec 1 0) = 1.
Proof. unfold decR; cbn. reflexivity. Qed.
Lemma decR0 : decR (mkdec 0 0) = 0.
Proof. unfold decR; cbn. reflexivity. Qed.
Lemma ex_check wt : check (argsg wt ex_ev 1 (mkdec 1 0)) = Ok tt.
Proof.
  assert (U : check (argsu (map fst ex_ev) 1 (mkdec 1 0)) = Ok tt).
  { transitivity (check (argsu (map Fin [1; 2; 0]) 1 (mkdec 1 0))).
    - apply (check_u_values _ _ 1 1 0); [apply ex_no_inf|apply no_inf_map_Fin| |split; discriminate].
      intros v. cbn. rewrite Rplus_0_r. tauto.
    - apply check_grid with 0; rewrite decR1.
      + unfold epsR; simpl; lra.
      + intros m [<-|[<-|[<-|[]]]]; [exists 1%Z|exists 2%Z|exists 0%Z]; lra. }
  destruct wt; cbn [argsg]; [|exact U]. rewrite check_w, U. cbn [rbind existsb ex_ev snd].
  rewrite !(proj2 (rlt_false _ _)) by lra. reflexivity.
Qed.
Lemma ex_complete : complete 1 1 ex_ev = [(1, 1); (2, 3)].
Proof.
  unfold complete, ex_ev. cbn [flat_map fst snd].
  rewrite (proj2 (rle_true (1 - 1 / 2) 1)), (proj2 (rle_true (1 - 1 / 2) 2)), (proj2 (rle_false (1 - 1 / 2) 0)) by lra. reflexivity.
Qed.
Example C09_example : exists o', calculate ex_srt Classic true (argsg true ex_ev 1 (mkdec 1 0)) new_obj = (o', Ok (est_val Classic (3/4) 1)).
Proof.
  pose proof (calc_g ex_srt Classic true true ex_ev 1 (mkdec 1 0) new_obj eq_refl ex_no_inf) as H.
  rewrite ex_check, decR1 in H. cbn [rbind effective] in H. rewrite ex_complete in H.
  assert (E : core Classic 1 (mkdec 1 0) [(1, 1); (2, 3)] = Ok (est_val Classic (3 / 4) 1)).
  { unfold core, est_core, excess, wsum; cbn [map fst snd Rsum fold_right].
    rewrite (proj2 (req_false _ _)) by lra. rewrite decR1. do 2 f_equal. field. }
  rewrite E in H. destruct (calculate _ _ _ _ _) as [o' r]. cbn in H. subst r. exists o'. reflexivity.
Qed.

(** ** C10: maximum likelihood *)
(** continuous magnitudes; [ms] is an arbitrary sample with or without NaN *)
Theorem C10_classic_continuous_mle : forall srt w ms mc delta o,
  no_inf ms -> decR delta = 0 ->
  let used := filter (fun m => rle mc m) (fins ms) in
  (exists m, In m used /\ mc < m) ->
  exists b, snd (calculate srt Classic w (argsu ms mc delta) o) = Ok (Fin b) /\
    unique_positive_maximiser (fun beta => Rprod (map (exp_density beta mc) used)) (b * ln 10).
Proof.
  intros srt w ms mc delta o Hi Hd used (m0 & Hm0 & L0).
  assert (Hc : check (argsu ms mc delta) = Ok tt).
  { apply check_zero; [exact Hd| |exact Hi]. intros F. unfold used in Hm0. rewrite F in Hm0. destruct Hm0. }
  assert (EU : map fst (complete mc (decR delta) (unit_events ms)) = used).
  { rewrite Hd. unfold used, complete, unit_events. clear. induction ms as [|m ms IH]; [reflexivity|].
    cbn [map flat_map fins fst snd]. rewrite map_app, IH. destruct m as [m| | |]; try reflexivity.
    cbn [filter fst]. replace (mc - 0 / 2) with mc by lra. destruct (rle mc m); reflexivity. }
  set (l := complete mc (decR delta) (unit_events ms)) in *.
  assert (Ul : forall p, In p l -> snd p = 1) by (intros p; apply complete_units).
  assert (Nl : l <> []) by (intros F; rewrite F in EU; cbn in EU; rewrite <- EU in Hm0; destruct Hm0).
  assert (HW : 0 < wsum l). { rewrite wsum_units by exact Ul. apply lt_0_INR. destruct l; [congruence|cbn; lia]. }
  assert (EX : excess mc l * wsum l = Rsum (map (fun m => m - mc) used)).
  { unfold excess. rewrite <- EU, map_map. unfold Rdiv. rewrite Rmult_assoc, Rinv_l, Rmult_1_r by lra.
    apply Rsum_map_ext. intros p Hp. rewrite Ul by exact Hp. ring. }
  assert (PX : 0 < Rsum (map (fun m => m - mc) used)).
  { assert (NN : forall x, In x (map (fun m => m - mc) used) -> 0 <= x).
    { intros x Hx. apply in_map_iff in Hx. destruct Hx as (m & <- & Hm). unfold used in Hm. apply filter_In in Hm.
      destruct Hm as [_ Hm]. apply rle_true in Hm. lra. }
    destruct (Rle_lt_or_eq_dec _ _ (Rsum_nonneg _ NN)) as [P|P]; [exact P|]. exfalso.
    assert (m0 - mc = 0); [|lra]. apply (Rsum_zero_all _ NN (eq_sym P)). apply in_map_iff. exists m0. auto. }
  assert (HX : 0 < excess mc l). { apply Rmult_lt_reg_r with (wsum l); [exact HW|]. rewrite Rmult_0_l, EX. exact PX. }
  exists (1 / excess mc l / ln 10). split.
  - rewrite calc_u by (try reflexivity; exact Hi). rewrite Hc. cbn [rbind]. fold l. unfold core.
    destruct l eqn:El; [congruence|]. rewrite <- El in *. unfold est_core.
    rewrite (proj2 (req_false _ _)) by lra. rewrite Hd, est_val_classic0 by exact HX. reflexivity.
  - pose proof ln10_pos. replace (1 / excess mc l / ln 10 * ln 10) with (1 / excess mc l) by (field; lra).
    apply maximiser_exp_ext with (fun b => wsum l * (ln b - b * excess mc l)); [|apply max_exp; assumption].
    intros y Hy. rewrite Rprod_exp.
    2:{ intros x _. unfold exp_density. apply Rmult_lt_0_compat; [exact Hy|apply exp_pos]. }
    f_equal. transitivity (INR (length used) * ln y - y * Rsum (map (fun m => m - mc) used)).
    + rewrite (Rsum_map_ext _ (fun m => ln y + (- y) * (m - mc))).
      2:{ intros x _. unfold exp_density. rewrite ln_mult by (try apply exp_pos; exact Hy). rewrite ln_exp. ring. }
      rewrite Rsum_map_plus, Rsum_map_const, Rsum_map_scal. ring.
    + rewrite <- EX. rewrite wsum_units by exact Ul. rewrite <- EU, map_length. ring.
Qed.
Print Assumptions C10_classic_continuous_mle.

(** binned magnitudes mc + k*delta_m *)
Theorem C10_classic_binned_mle : forall srt w (ks : list Z) mc delta o,
  epsR <= decR delta -> (exists k, In k ks /\ (0 < k)%Z) ->
  exists b, snd (calculate srt Classic w (argsu (map (fun k => Fin (mc + IZR k * decR delta)) ks) mc delta) o) = Ok (Fin b) /\
    unique_positive_maximiser
      (fun beta => Rprod (map (fun k => bin_probability beta (decR delta) (Z.to_nat k)) (filter (fun k => 0 <=? k)%Z ks)))
      (b * ln 10).
Proof.
  intros srt w ks mc delta o Hd (k0 & Hk0 & L0). pose proof epsR_bounds as Eb. set (d := decR delta) in *.
  set (ms := map (fun k => Fin (mc + IZR k * d)) ks).
  assert (Hi : no_inf ms) by (intros v Hv; apply in_map_iff in Hv; destruct Hv as (k & <- & _); split; discriminate).
  assert (Hc : check (argsu ms mc delta) = Ok tt).
  { unfold ms. rewrite <- (map_map (fun k => mc + IZR k * d) Fin). apply check_grid with mc; [exact Hd|].
    intros m Hm. apply in_map_iff in Hm. destruct Hm as (k & <- & _). exists k. reflexivity. }
  set (used := filter (fun k => 0 <=? k)%Z ks).
  assert (EU : complete mc d (unit_events ms) = map (fun k => (mc + IZR k * d, 1)) used).
  { unfold used, ms, complete, unit_events. clear - Hd Eb. fold d in Hd. induction ks as [|k ks IH]; [reflexivity|].
    cbn [map flat_map filter fst snd]. rewrite IH. destruct (Z.leb_spec 0 k) as [G|G].
    - assert (0 <= IZR k) by (apply IZR_le in G; exact G). rewrite (proj2 (rle_true _ _)) by nra. reflexivity.
    - assert (IZR k <= -1) by (apply IZR_le; lia). rewrite (proj2 (rle_false _ _)) by nra. reflexivity. }
  assert (Hu0 : In k0 used) by (apply filter_In; split; [exact Hk0|apply Z.leb_le; lia]).
  set (l := complete mc d (unit_events ms)) in *.
  assert (Nl : l <> []) by (rewrite EU; destruct used; [destruct Hu0|discriminate]).
  assert (Ul : forall p, In p l -> snd p = 1) by (intros p; apply complete_units).
  assert (HW : 0 < wsum l). { rewrite wsum_units by exact Ul. apply lt_0_INR. destruct l; [congruence|cbn; lia]. }
  assert (EX : excess mc l * wsum l = d * Rsum (map IZR used)).
  { unfold excess. unfold Rdiv. rewrite Rmult_assoc, Rinv_l, Rmult_1_r by lra.
    rewrite EU, map_map. cbn [fst snd]. rewrite <- Rsum_map_scal. apply Rsum_map_ext. intros. ring. }
  assert (PX : 0 < Rsum (map IZR used)).
  { assert (NN : forall x, In x (map IZR used) -> 0 <= x).
    { intros x Hx. apply in_map_iff in Hx. destruct Hx as (k & <- & Hk). apply filter_In in Hk. apply IZR_le. apply Z.leb_le. tauto. }
    destruct (Rle_lt_or_eq_dec _ _ (Rsum_nonneg _ NN)) as [P|P]; [exact P|]. exfalso.
    assert (IZR k0 = 0) by (apply (Rsum_zero_all _ NN (eq_sym P)); apply in_map; exact Hu0).
    apply IZR_lt in L0. lra. }
  assert (HX : 0 < excess mc l). { apply Rmult_lt_reg_r with (wsum l); [exact HW|]. rewrite Rmult_0_l, EX. nra. }
  exists (ln (1 + d / excess mc l) / d / ln 10). split.
  - rewrite calc_u by (try reflexivity; exact Hi). rewrite Hc. cbn [rbind]. fold d. fold l. unfold core.
    destruct l eqn:El; [congruence|]. rewrite <- El in *. unfold est_core.
    rewrite (proj2 (req_false _ _)) by lra. fold d. rewrite est_val_classic by lra. reflexivity.
  - pose proof ln10_pos. replace (ln (1 + d / excess mc l) / d / ln 10 * ln 10) with (ln (1 + d / excess mc l) / d) by (field; lra).
    apply maximiser_exp_ext with (fun b => wsum l * (ln (1 - exp (- b * d)) - b * excess mc l)); [|apply max_geo; lra].
    intros y Hy. assert (E1 : exp (- y * d) < 1) by (rewrite <- exp_0; apply exp_increasing; nra).
    assert (E0 : 0 < exp (- y * d)) by apply exp_pos.
    rewrite Rprod_exp.
    2:{ intros k _. unfold bin_probability. apply Rmult_lt_0_compat; [lra|apply pow_lt; exact E0]. }
    f_equal.
    rewrite (Rsum_map_ext _ (fun k => ln (1 - exp (- y * d)) + (- y * d) * IZR k)).
    2:{ intros k Hk. apply filter_In in Hk. destruct Hk as [_ Hk]. apply Z.leb_le in Hk. unfold bin_probability.
        rewrite ln_mult by (try apply pow_lt; lra). rewrite ln_pow by exact E0. rewrite ln_exp.
        rewrite INR_IZR_INZ, Z2Nat.id by exact Hk. ring. }
    rewrite Rsum_map_plus, Rsum_map_const, Rsum_map_scal.
    replace (wsum l * (ln (1 - exp (- y * d)) - y * excess mc l))
      with (wsum l * ln (1 - exp (- y * d)) - y * (excess mc l * wsum l)) by ring.
    rewrite EX, wsum_units by exact Ul. rewrite EU, map_length. ring.
Qed.
Print Assumptions C10_classic_binned_mle.
Example C10_example : epsR <= decR (mkdec 1 (-1)) /\ exists k, In k [0; 3; -1]%Z /\ (0 < k)%Z.
Proof. split; [unfold decR, epsR; simpl; lra|exists 3%Z; cbn; lia]. Qed.

(** with weights: the weighted log-likelihood (continuous case and, for a finite binned sample, the
    discretised one) *)
Theorem C10_classic_weighted_mle : forall srt w (ev : list event) mc delta o r,
  no_inf (map fst ev) -> 0 <= decR delta ->
  snd (calculate srt Classic w (argsg true ev mc delta) o) = Ok r ->
  let l := complete mc (decR delta) ev in
  0 < wsum l -> mc < wmean l ->
  exists b, r = Fin b /\
    unique_positive_maximiser
      (fun beta => Rsum (map (fun p => snd p * (if rlt 0 (decR delta)
                                                then ln (1 - exp (- beta * decR delta)) - beta * (fst p - mc)
                                                else ln (exp_density beta mc (fst p)))) l)) (b * ln 10).
Proof.
  intros srt w ev mc delta o r Hi Hd E l HW HM.
  rewrite calc_g in E by (try reflexivity; exact Hi). cbn [effective] in E. fold l in E.
  destruct (check _); [|discriminate]. cbn [rbind] in E. unfold core in E.
  destruct l eqn:El; [unfold wsum in HW; cbn in HW; lra|]. rewrite <- El in *. unfold est_core in E.
  rewrite (proj2 (req_false _ _)) in E by lra.
  assert (Er : est_val Classic (excess mc l) (decR delta) = r) by congruence. rewrite <- Er. clear E Er r.
  assert (HX : 0 < excess mc l) by (rewrite excess_wmean by lra; lra). pose proof ln10_pos.
  assert (S : Rsum (map (fun p => snd p * (fst p - mc)) l) = excess mc l * wsum l) by (unfold excess; field; lra).
  destruct (rlt 0 (decR delta)) eqn:Ed.
  - apply rlt_true in Ed. exists (ln (1 + decR delta / excess mc l) / decR delta / ln 10).
    split; [apply est_val_classic; assumption|].
    replace (ln (1 + decR delta / excess mc l) / decR delta / ln 10 * ln 10) with (ln (1 + decR delta / excess mc l) / decR delta) by (field; lra).
    apply maximiser_ext with (fun b => wsum l * (ln (1 - exp (- b * decR delta)) - b * excess mc l)); [|apply max_geo; assumption].
    intros y Hy. rewrite (Rsum_map_ext _ (fun p => ln (1 - exp (- y * decR delta)) * snd p + (- y) * (snd p * (fst p - mc)))) by (intros; ring).
    rewrite Rsum_map_plus, !Rsum_map_scal, S. fold (wsum l). ring.
  - apply rlt_false in Ed. assert (D0 : decR delta = 0) by lra. rewrite D0. exists (1 / excess mc l / ln 10).
    split; [apply est_val_classic0; assumption|].
    replace (1 / excess mc l / ln 10 * ln 10) with (1 / excess mc l) by (field; lra).
    apply maximiser_ext with (fun b => wsum l * (ln b - b * excess mc l)); [|apply max_exp; assumption].
    intros y Hy. rewrite (Rsum_map_ext _ (fun p => ln y * snd p + (- y) * (snd p * (fst p - mc)))).
    2:{ intros p0 _. unfold exp_density. rewrite ln_mult by (try apply exp_pos; exact Hy). rewrite ln_exp. ring. }
    rewrite Rsum_map_plus, !Rsum_map_scal, S. fold (wsum l). ring.
Qed.
Print Assumptions C10_classic_weighted_mle.
Example C10_weighted_example : 0 < wsum (complete 1 (decR (mkdec 1 0)) ex_ev) /\ 1 < wmean (complete 1 (decR (mkdec 1 0)) ex_ev).
Proof. rewrite decR1, ex_complete. unfold wmean, wsum; cbn. lra. Qed.

(** ** C11 *)
Theorem C11_classic_above_utsu : forall srt w w' wt (ev : list event) mc delta o o' r,
  no_inf (map fst ev) -> 0 < decR delta ->
  snd (calculate srt Classic w (argsg wt ev mc delta) o) = Ok r ->
  let l := complete mc (decR delta) (effective wt ev) in
  0 < wsum l -> mc < wmean l ->
  exists bc bu, r = Fin bc /\ snd (calculate srt Utsu w' (argsg wt ev mc delta) o') = Ok (Fin bu) /\
    0 < bu < bc /\
    0 < 1 / (bu * ln 10) - 1 / (bc * ln 10) <= decR delta * decR delta / (12 * (wmean l - mc)).
Proof.
  intros srt w w' wt ev mc delta o o' r Hi Hd E l HW HM.
  rewrite calc_g by (try reflexivity; exact Hi). rewrite calc_g in E by (try reflexivity; exact Hi). fold l. fold l in E.
  destruct (check _); [|discriminate]. cbn [rbind] in *. unfold core in *.
  destruct l eqn:El; [unfold wsum in HW; cbn in HW; lra|]. rewrite <- El in *. unfold est_core in *.
  rewrite (proj2 (req_false _ _)) by lra. rewrite (proj2 (req_false _ _)) in E by lra.
  assert (Er : est_val Classic (excess mc l) (decR delta) = r) by congruence. rewrite <- Er. clear E Er r.
  rewrite <- excess_wmean by lra. assert (HX : 0 < excess mc l) by (rewrite excess_wmean by lra; lra).
  set (x := excess mc l) in *. set (d := decR delta) in *. pose proof ln10_pos as L10.
  rewrite est_val_classic, est_val_utsu by lra.
  assert (Hq : 0 < d / x) by (apply Rdiv_lt_0_compat; lra).
  assert (Hl : 0 < ln (1 + d / x)) by (rewrite <- ln_1; apply ln_increasing; lra).
  exists (ln (1 + d / x) / d / ln 10), (1 / (x + d / 2) / ln 10). split; [reflexivity|]. split; [reflexivity|].
  pose proof (ln1p_lower (d / x) Hq) as B1. pose proof (ln1p_upper (d / x) Hq) as B2.
  assert (Bc : 0 < ln (1 + d / x) / d) by (apply Rdiv_lt_0_compat; lra).
  assert (Bu : 0 < 1 / (x + d / 2)) by (apply Rdiv_lt_0_compat; lra).
  assert (Lt : 1 / (x + d / 2) < ln (1 + d / x) / d).
  { apply Rmult_lt_reg_r with d; [exact Hd|]. replace (ln (1 + d / x) / d * d) with (ln (1 + d / x)) by (field; lra).
    replace (1 / (x + d / 2) * d) with (2 * (d / x) / (2 + d / x)) by (field; lra). exact B1. }
  assert (EU : 1 / (1 / (x + d / 2) / ln 10 * ln 10) = x + d / 2) by (field; lra).
  assert (EC : 1 / (ln (1 + d / x) / d / ln 10 * ln 10) = d / ln (1 + d / x)) by (field; lra).
  rewrite EU, EC. split; [|split].
  - split; [apply Rdiv_lt_0_compat; lra|]. unfold Rdiv. apply Rmult_lt_compat_r; [apply Rinv_0_lt_compat; lra|]. exact Lt.
  - assert (d / ln (1 + d / x) < x + d / 2); [|lra].
    apply Rmult_lt_reg_r with (ln (1 + d / x)); [exact Hl|].
    replace (d / ln (1 + d / x) * ln (1 + d / x)) with d by (field; lra).
    apply Rmult_lt_compat_l with (r := x + d / 2) in B1; [|lra].
    replace ((x + d / 2) * (2 * (d / x) / (2 + d / x))) with d in B1 by (field; lra). exact B1.
  - apply Rmult_le_compat_l with (r := x) in B2; [|lra].
    replace (x * (d / x)) with d in B2 by (field; lra).
    assert (Q : (x + d / 2 - d * d / (12 * x)) * ln (1 + d / x) <= d).
    { replace (x + d / 2 - d * d / (12 * x)) with (x * (1 + d / x / 2 - d / x * (d / x) / 12)) by (field; lra). rewrite Rmult_assoc. exact B2. }
    assert (x + d / 2 - d * d / (12 * x) <= d / ln (1 + d / x)); [|lra].
    apply Rmult_le_reg_r with (ln (1 + d / x)); [exact Hl|].
    replace (d / ln (1 + d / x) * ln (1 + d / x)) with d by (field; lra). exact Q.
Qed.
Print Assumptions C11_classic_above_utsu.
Theorem C11_equal_for_continuous : forall srt w w' wt (ev : list event) mc delta o o',
  no_inf (map fst ev) -> decR delta = 0 ->
  snd (calculate srt Classic w (argsg wt ev mc delta) o) = snd (calculate srt Utsu w' (argsg wt ev mc delta) o').
Proof.
  intros srt w w' wt ev mc delta o o' Hi Hd. rewrite !calc_g by (try reflexivity; exact Hi).
  destruct (check _); [|reflexivity]. cbn [rbind]. unfold core. destruct (complete _ _ _); [reflexivity|].
  unfold est_core. destruct (req _ _); [reflexivity|]. rewrite Hd. unfold est_val.
  rewrite (proj2 (rlt_false 0 0)) by lra. do 4 f_equal. f_equal. lra.
Qed.
Print Assumptions C11_equal_for_continuous.
Example C11_example : snd (calculate ex_srt Classic true (argsg true ex_ev 1 (mkdec 1 0)) new_obj) = Ok (est_val Classic (3/4) 1).
Proof. destruct C09_example as (o' & ->). reflexivity. Qed.

(** ** C12: weights as multiplicities *)
Theorem C12_constant_weights : forall srt k w w' ms mc delta c o o', k = Classic \/ k = Utsu -> no_inf ms -> 0 < c ->
  snd (calculate srt k w (argsw (map (fun m => (m, c)) ms) mc delta) o) = snd (calculate srt k w' (argsu ms mc delta) o').
Proof.
  intros srt k w w' ms mc delta c o o' Hk Hi Hc. assert (Hp : is_pos k = false) by (destruct Hk as [->| ->]; reflexivity).
  assert (F : map fst (map (fun m => (m, c)) ms) = ms) by (rewrite map_map; apply map_id).
  rewrite calc_w, calc_u by (try rewrite F; assumption). rewrite check_w, F.
  assert (X : existsb (fun e : event => rlt (snd e) 0) (map (fun m => (m, c)) ms) = false).
  { clear - Hc. induction ms; [reflexivity|]. cbn [map existsb snd]. rewrite IHms, (proj2 (rlt_false _ _)) by lra. reflexivity. }
  match goal with |- context [existsb ?f ?l] => change (existsb f l) with (existsb (fun e : event => rlt (snd e) 0) (map (fun m => (m, c)) ms)) end.
  rewrite X. destruct (check (argsu ms mc delta)); [|reflexivity]. cbn [rbind].
  assert (E : map (fun m => (m, c)) ms = reweight (fun v => c * v) (unit_events ms)).
  { unfold reweight, unit_events. rewrite map_map. apply map_ext. intros; cbn. f_equal. ring. }
  rewrite E, complete_map, core_wscale by lra. reflexivity.
Qed.
Print Assumptions C12_constant_weights.
Theorem C12_scaled_weights : forall srt k w w' ev mc delta c o o', k = Classic \/ k = Utsu -> no_inf (map fst ev) -> 0 < c ->
  snd (calculate srt k w (argsw (map (fun e => (fst e, c * snd e)) ev) mc delta) o)
  = snd (calculate srt k w' (argsw ev mc delta) o').
Proof.
  intros srt k w w' ev mc delta c o o' Hk Hi Hc. assert (Hp : is_pos k = false) by (destruct Hk as [->| ->]; reflexivity).
  change (map (fun e : event => (fst e, c * snd e)) ev) with (reweight (fun v => c * v) ev).
  assert (F : map fst (reweight (fun v => c * v) ev) = map fst ev) by (unfold reweight; rewrite map_map; reflexivity).
  rewrite !calc_w by (try rewrite F; assumption). rewrite !check_w, F.
  destruct (check (argsu (map fst ev) mc delta)); [|reflexivity]. cbn [rbind].
  replace (existsb (fun e : event => rlt (snd e) 0) (reweight (fun v => c * v) ev)) with (existsb (fun e : event => rlt (snd e) 0) ev).
  2:{ clear - Hc. induction ev as [|e ev IH]; [reflexivity|]. cbn [reweight map existsb snd] in *. rewrite IH. f_equal.
      destruct (rlt (snd e) 0) eqn:E; symmetry; [apply rlt_true in E; apply rlt_true; nra|apply rlt_false in E; apply rlt_false; nra]. }
  destruct (existsb _ ev); [reflexivity|]. cbn [rbind]. rewrite complete_map, core_wscale by lra. reflexivity.
Qed.
Print Assumptions C12_scaled_weights.
Theorem C12_zero_weight_dropped : forall srt k w w' ev1 ev2 m mc delta o o' b b', k = Classic \/ k = Utsu ->
  no_inf (map fst (ev1 ++ (m, 0) :: ev2)) ->
  snd (calculate srt k w (argsw (ev1 ++ (m, 0) :: ev2) mc delta) o) = Ok b ->
  snd (calculate srt k w' (argsw (ev1 ++ ev2) mc delta) o') = Ok b' -> b = b'.
Proof.
  intros srt k w w' ev1 ev2 m mc delta o o' b b' Hk Hi. assert (Hp : is_pos k = false) by (destruct Hk as [->| ->]; reflexivity).
  assert (Hi' : no_inf (map fst (ev1 ++ ev2))).
  { intros v Hv. apply Hi. rewrite map_app in *. apply in_app_iff in Hv. apply in_app_iff. cbn. tauto. }
  rewrite !calc_w by assumption. destruct (check _); [|discriminate]. destruct (check _); [|discriminate]. cbn [rbind].
  replace (complete mc (decR delta) (ev1 ++ (m, 0) :: ev2)) with
    (complete mc (decR delta) ev1 ++ complete mc (decR delta) [(m, 0)] ++ complete mc (decR delta) ev2)
    by (rewrite <- !complete_app; reflexivity).
  rewrite complete_app. set (l1 := complete mc (decR delta) ev1). set (l2 := complete mc (decR delta) ev2).
  assert (X : complete mc (decR delta) [(m, 0)] = [] \/ exists r, complete mc (decR delta) [(m, 0)] = [(r, 0)]).
  { unfold complete; cbn [flat_map fst snd]. destruct m as [r| | |]; auto. destruct (rle _ r); [right; exists r|left]; reflexivity. }
  destruct X as [->|(r & ->)]; [cbn [app]; congruence|]. cbn [app].
  assert (W : wsum (l1 ++ (r, 0) :: l2) = wsum (l1 ++ l2)).
  { unfold wsum. rewrite !map_app, !Rsum_app. cbn [map snd]. rewrite Rsum_cons. lra. }
  assert (X : excess mc (l1 ++ (r, 0) :: l2) = excess mc (l1 ++ l2)).
  { unfold excess. rewrite W. f_equal. rewrite !map_app, !Rsum_app. cbn [map fst snd]. rewrite Rsum_cons. lra. }
  unfold core. destruct (l1 ++ (r, 0) :: l2) as [|q l3] eqn:E1; [destruct l1; discriminate|]. rewrite <- E1 in *.
  unfold est_core. rewrite W, X. destruct (req (wsum (l1 ++ l2)) 0) eqn:E0; [discriminate|].
  apply req_false in E0. destruct (l1 ++ l2) eqn:E2; [unfold wsum in E0; cbn in E0; lra|]. congruence.
Qed.
Print Assumptions C12_zero_weight_dropped.
Lemma wsum_pos l : (forall p : R * R, In p l -> 0 < snd p) -> l <> [] -> 0 < wsum l.
Proof.
  intros H N. apply Rsum_pos_nonempty; [destruct l; [congruence|discriminate]|].
  intros x Hx. apply in_map_iff in Hx. destruct Hx as (p & <- & Hp). apply H; exact Hp.
Qed.
Lemma list_eq_nil_dec {A} (l : list A) : l = [] \/ l <> [].
Proof. destruct l; [left; reflexivity|right; discriminate]. Qed.
Theorem C12_integer_weights_repeat : forall srt k w w' (ev : list (xr * nat)) mc delta o o', k = Classic \/ k = Utsu ->
  no_inf (map fst ev) ->
  snd (calculate srt k w (argsw (map (fun e => (fst e, INR (S (snd e)))) ev) mc delta) o)
  = snd (calculate srt k w' (argsu (flat_map (fun e => repeat (fst e) (S (snd e))) ev) mc delta) o').
Proof.
  intros srt k w w' ev mc delta o o' Hk Hi. assert (Hp : is_pos k = false) by (destruct Hk as [->| ->]; reflexivity).
  set (ew := map (fun e : xr * nat => (fst e, INR (S (snd e)))) ev).
  set (rep := flat_map (fun e : xr * nat => repeat (fst e) (S (snd e))) ev).
  assert (Fw : map fst ew = map fst ev) by (unfold ew; rewrite map_map; reflexivity).
  assert (In_rep : forall v, In v rep <-> In v (map fst ev)).
  { intros v. unfold rep. rewrite in_flat_map, in_map_iff. split.
    - intros (e & He & Hr). apply repeat_spec in Hr. exists e. auto.
    - intros (e & <- & He). exists e. split; [exact He|]. left. reflexivity. }
  assert (Hir : no_inf rep) by (intros v Hv; apply Hi; apply In_rep; exact Hv).
  rewrite calc_w, calc_u by (try rewrite Fw; assumption). rewrite check_w, Fw.
  assert (C : check (argsu (map fst ev) mc delta) = check (argsu rep mc delta)).
  { apply (check_u_values _ _ mc mc 0); auto.
    - intros v. rewrite !in_fins, Rplus_0_r. symmetry. apply In_rep.
    - destruct ev; cbn; [tauto|split; discriminate]. }
  rewrite C. destruct (check (argsu rep mc delta)); [|reflexivity]. cbn [rbind].
  assert (X : existsb (fun e : event => rlt (snd e) 0) ew = false).
  { unfold ew. clear. induction ev as [|e ev IH]; [reflexivity|]. cbn [map existsb snd]. rewrite IH.
    rewrite (proj2 (rlt_false _ _)) by (apply pos_INR). reflexivity. }
  rewrite X. cbn [rbind].
  set (d := decR delta). set (lw := complete mc d ew). set (lr := complete mc d (unit_events rep)).
  assert (CR : forall f : R -> R, Rsum (map (fun p => snd p * f (fst p)) lw) = Rsum (map (fun p => snd p * f (fst p)) lr)).
  { intros f. unfold lw, lr, ew, rep. clear. induction ev as [|[m n] ev IH]; [reflexivity|].
    cbn [map flat_map fst snd]. unfold unit_events. rewrite map_app.
    change (map (fun m0 : xr => (m0, 1)) (flat_map (fun e : xr * nat => repeat (fst e) (S (snd e))) ev))
      with (unit_events (flat_map (fun e : xr * nat => repeat (fst e) (S (snd e))) ev)).
    rewrite complete_app, map_app, Rsum_app, <- IH.
    change ((m, INR (S n)) :: map (fun e : xr * nat => (fst e, INR (S (snd e)))) ev)
      with ([(m, INR (S n))] ++ map (fun e : xr * nat => (fst e, INR (S (snd e)))) ev).
    rewrite complete_app, map_app, Rsum_app. f_equal.
    generalize (S n) as q. clear. intros q. unfold complete. cbn [flat_map fst snd]. rewrite app_nil_r.
    destruct m as [r| | |].
    2-4: induction q; cbn; [reflexivity|exact IHq].
    destruct (rle (mc - d / 2) r) eqn:E.
    - assert (G : forall g : R * R -> R, Rsum (map g (flat_map (fun e : event => match fst e with
          | Fin m => if rle (mc - d / 2) m then [(m, snd e)] else [] | _ => [] end) (map (fun m => (m, 1)) (repeat (Fin r) q)))) = INR q * g (r, 1)).
      { intros g. induction q as [|q IH]; [cbn; ring|]. cbn [repeat map flat_map fst snd app]. rewrite E.
        cbn [app map]. rewrite Rsum_cons, IH, S_INR. ring. }
      rewrite G. cbn [map fst snd Rsum fold_right]. ring.
    - induction q as [|q IH]; [reflexivity|]. cbn [repeat map flat_map fst snd app]. rewrite E. exact IH. }
  assert (W : wsum lw = wsum lr).
  { specialize (CR (fun _ => 1)). unfold wsum.
    rewrite (Rsum_map_ext snd (fun p => snd p * 1) lw), (Rsum_map_ext snd (fun p => snd p * 1) lr) by (intros; ring). exact CR. }
  assert (EX : excess mc lw = excess mc lr) by (unfold excess; rewrite W; f_equal; apply (CR (fun x => x - mc))).
  assert (Nil : lw = [] <-> lr = []).
  { assert (PW : forall p, In p lw -> 0 < snd p).
    { intros p. unfold lw, ew, complete. rewrite in_flat_map. intros (e & He & Hpp). apply in_map_iff in He.
      destruct He as (e' & <- & _). cbn in Hpp. destruct (fst e'); try contradiction.
      destruct (rle _ _); [|contradiction]. destruct Hpp as [<-|[]]. change (0 < INR (S (snd e'))). apply lt_0_INR. lia. }
    assert (PR : forall p, In p lr -> 0 < snd p) by (intros p Hpr; rewrite (complete_units _ _ _ _ Hpr); lra).
    assert (Z : wsum [] = 0) by reflexivity.
    split; intros E0; match goal with |- ?x = [] => destruct (list_eq_nil_dec x) as [Q|Q]; [exact Q|exfalso] end.
    - pose proof (wsum_pos lr PR Q) as HP. rewrite <- W, E0, Z in HP. lra.
    - pose proof (wsum_pos lw PW Q) as HP. rewrite W, E0, Z in HP. lra. }
  unfold core. destruct lw as [|p1 l1] eqn:E1.
  - rewrite (proj1 Nil eq_refl). reflexivity.
  - destruct lr as [|p2 l2] eqn:E2; [specialize (proj2 Nil eq_refl); discriminate|].
    unfold est_core. rewrite W, EX. reflexivity.
Qed.
Print Assumptions C12_integer_weights_repeat.
Example C12_example : no_inf (map fst [(Fin 1, 0%nat); (NaN, 2%nat); (Fin 2, 2%nat)]).
Proof. intros v [<-|[<-|[<-|[]]]]; split; discriminate. Qed.

(** ** C13: order of the events *)
Theorem C13_order_irrelevant : forall srt k w w' wt ev ev' mc delta o o', k = Classic \/ k = Utsu ->
  no_inf (map fst ev) -> Permutation ev ev' ->
  let '(o1, r1) := calculate srt k w (argsg wt ev mc delta) o in
  let '(o2, r2) := calculate srt k w' (argsg wt ev' mc delta) o' in
  r1 = r2 /\
  (forall b, r1 = Ok b -> est_n o1 = est_n o2 /\ est_std o1 = est_std o2 /\ est_std_beta o1 = est_std_beta o2).
Proof.
  intros srt k w w' wt ev ev' mc delta o o' Hk Hi P. assert (Hp : is_pos k = false) by (destruct Hk as [->| ->]; reflexivity).
  assert (Hi' : no_inf (map fst ev')) by (apply no_inf_perm with (map fst ev); [apply Permutation_map; exact P|exact Hi]).
  pose proof (calc_g srt k w wt ev mc delta o Hp Hi) as E1. pose proof (calc_g srt k w' wt ev' mc delta o' Hp Hi') as E2.
  pose proof (complete_perm mc (decR delta) _ _ (effective_perm wt ev ev' P)) as PC.
  destruct (calculate srt k w (argsg wt ev mc delta) o) as [o1 r1] eqn:C1.
  destruct (calculate srt k w' (argsg wt ev' mc delta) o') as [o2 r2] eqn:C2. cbn [snd] in E1, E2.
  assert (Er : r1 = r2).
  { rewrite E1, E2, (check_g_perm wt ev ev') by assumption. destruct (check (argsg wt ev' mc delta)); [|reflexivity]. cbn [rbind]. apply core_perm. exact PC. }
  split; [exact Er|]. intros b Hb. rewrite Hb in *. rewrite <- Er in *.
  apply final_g in C1; [|assumption|assumption]. apply final_g in C2; [|assumption|assumption].
  destruct C1 as (M1 & W1 & B1). destruct C2 as (M2 & W2 & B2).
  assert (SB : forall bb par, shi_bolt_confidence (mags_of o1) bb (o_weights o1) par = shi_bolt_confidence (mags_of o2) bb (o_weights o2) par).
  { intros bb par. eapply (std_sample wt); try eassumption.
    - intros Hw. apply effective_one; exact Hw.
    - intros Hw. apply effective_one; exact Hw.
    - apply perm_nil_iff; exact PC.
    - apply wsum_perm; exact PC.
    - apply wvar_perm; exact PC. }
  unfold est_n, est_std, est_std_beta, est_beta, b_value. rewrite B1, B2. cbn [rbind rmap].
  split; [|split; apply SB]. f_equal. unfold mags_of. rewrite M1, M2, !map_length. apply Permutation_length. exact PC.
Qed.
Print Assumptions C13_order_irrelevant.
Example C13_example : Permutation ex_ev (rev ex_ev) /\ no_inf (map fst ex_ev).
Proof. split; [apply Permutation_rev|apply ex_no_inf]. Qed.

(** ** C14: origin and unit of the magnitude scale, events that do not count *)
Theorem C14_shift : forall srt k w w' wt ev mc delta c o o', k = Classic \/ k = Utsu -> no_inf (map fst ev) ->
  let '(o1, r1) := calculate srt k w (argsg wt ev mc delta) o in
  let '(o2, r2) := calculate srt k w' (argsg wt (map (fun e => (nadd (fst e) (Fin c), snd e)) ev) (mc + c) delta) o' in
  r1 = r2 /\ (forall b, r1 = Ok b -> est_n o1 = est_n o2 /\ (0 < wsum (complete mc (decR delta) (effective wt ev)) -> est_std o1 = est_std o2)).
Proof.
  intros srt k w w' wt ev mc delta c o o' Hk Hi. assert (Hp : is_pos k = false) by (destruct Hk as [->| ->]; reflexivity).
  assert (EV : map (fun e : event => (nadd (fst e) (Fin c), snd e)) ev = ev_shift c ev).
  { unfold ev_shift. apply map_ext_in. intros [m v] He. cbn [fst snd]. f_equal.
    destruct (Hi m) as [A B]; [apply in_map_iff; exists (m, v); auto|]. destruct m; try congruence; reflexivity. }
  rewrite EV. assert (Hi' : no_inf (map fst (ev_shift c ev))) by (rewrite ev_shift_fst; apply no_inf_shift; exact Hi).
  pose proof (calc_g srt k w wt ev mc delta o Hp Hi) as E1.
  pose proof (calc_g srt k w' wt (ev_shift c ev) (mc + c) delta o' Hp Hi') as E2.
  rewrite check_g_shift in E2 by exact Hi. rewrite effective_shift, complete_shift, core_shift in E2.
  destruct (calculate srt k w (argsg wt ev mc delta) o) as [o1 r1] eqn:C1.
  destruct (calculate srt k w' (argsg wt (ev_shift c ev) (mc + c) delta) o') as [o2 r2] eqn:C2. cbn [snd] in E1, E2.
  assert (Er : r1 = r2) by congruence. split; [exact Er|]. intros b Hb. rewrite Hb in *. rewrite <- Er in *.
  apply final_g in C1; [|assumption|assumption]. apply final_g in C2; [|assumption|assumption].
  rewrite effective_shift, complete_shift in C2. set (l := complete mc (decR delta) (effective wt ev)) in *.
  destruct C1 as (M1 & W1 & B1). destruct C2 as (M2 & W2 & B2).
  unfold est_n, est_std, b_value. rewrite B1, B2. cbn [rbind rmap]. split.
  - f_equal. unfold mags_of. rewrite M1, M2, !map_length. unfold shift_l. rewrite map_length. reflexivity.
  - intros HW. eapply (std_sample wt); try eassumption.
    + intros Hw. apply effective_one; exact Hw.
    + intros Hw p Hp'. unfold shift_l in Hp'. apply in_map_iff in Hp'. destruct Hp' as (q & <- & Hq). cbn [snd].
      apply (effective_one wt ev Hw _ _ _ Hq).
    + unfold shift_l. destruct l; cbn; split; congruence.
    + rewrite wsum_shift. reflexivity.
    + rewrite wvar_shift by lra. reflexivity.
Qed.
Print Assumptions C14_shift.
Theorem C14_scale : forall srt k w w' wt ev mc delta delta' s o o' o1 o2 r1 r2, k = Classic \/ k = Utsu ->
  no_inf (map fst ev) -> 0 < s -> 0 <= decR delta -> decR delta' = s * decR delta ->
  calculate srt k w (argsg wt ev mc delta) o = (o1, Ok r1) ->
  calculate srt k w' (argsg wt (map (fun e => (nmul (Fin s) (fst e), snd e)) ev) (s * mc) delta') o' = (o2, Ok r2) ->
  let l := complete mc (decR delta) (effective wt ev) in
  0 < wsum l -> mc < wmean l ->
  exists b, r1 = Fin b /\ r2 = Fin (b / s) /\ est_n o1 = est_n o2 /\
    (1 < wsum l -> (forall p, In p l -> 0 <= snd p) ->
     exists std, est_std o1 = Ok (Fin std) /\ est_std o2 = Ok (Fin (std / s))).
Proof.
  intros srt k w w' wt ev mc delta delta' s o o' o1 o2 r1 r2 Hk Hi Hs Hd Hd'.
  assert (Hp : is_pos k = false) by (destruct Hk as [->| ->]; reflexivity).
  assert (EV : map (fun e : event => (nmul (Fin s) (fst e), snd e)) ev = ev_scale s ev).
  { unfold ev_scale. apply map_ext_in. intros [m v] He. cbn [fst snd]. f_equal.
    destruct (Hi m) as [A B]; [apply in_map_iff; exists (m, v); auto|]. destruct m; try congruence; reflexivity. }
  rewrite EV. assert (Hi' : no_inf (map fst (ev_scale s ev))) by (rewrite ev_scale_fst; apply no_inf_scale; exact Hi).
  intros C1 C2 l HW HM.
  pose proof (calc_g srt k w wt ev mc delta o Hp Hi) as E1.
  pose proof (calc_g srt k w' wt (ev_scale s ev) (s * mc) delta' o' Hp Hi') as E2.
  rewrite C1 in E1. rewrite C2 in E2. cbn [snd] in E1, E2. rewrite effective_scale, Hd', complete_scale in E2 by exact Hs.
  fold l in E1, E2. destruct (check _); [|discriminate]. destruct (check _); [|discriminate]. cbn [rbind] in E1, E2.
  assert (Nl : l <> []) by (intros F; rewrite F in HW; unfold wsum in HW; cbn in HW; lra).
  assert (HX : 0 < excess mc l) by (rewrite excess_wmean by lra; lra).
  assert (E1' : r1 = est_val k (excess mc l) (decR delta)).
  { unfold core, est_core in E1. destruct l; [congruence|]. rewrite (proj2 (req_false _ _)) in E1 by lra. congruence. }
  assert (E2' : r2 = est_val k (s * excess mc l) (s * decR delta)).
  { assert (Nl' : scale_l s l <> []) by (unfold scale_l; destruct l; [congruence|discriminate]).
    unfold core, est_core in E2. destruct (scale_l s l) eqn:Es; [congruence|]. rewrite <- Es in E2.
    rewrite wsum_scale_l in E2. rewrite (proj2 (req_false _ _)) in E2 by lra.
    unfold scale_l in E2. rewrite excess_scale in E2 by lra. rewrite Hd' in E2. congruence. }
  destruct (est_val_scale k s (excess mc l) (decR delta) Hs Hp Hd HX) as (b & V1 & V2).
  exists b. split; [congruence|]. split; [congruence|].
  apply final_g in C1; [|assumption|assumption]. apply final_g in C2; [|assumption|assumption].
  rewrite effective_scale, Hd', complete_scale in C2 by exact Hs. fold l in C1, C2.
  destruct C1 as (M1 & W1 & B1). destruct C2 as (M2 & W2 & B2).
  rewrite E1', V1 in B1. rewrite E2', V2 in B2.
  unfold est_n, est_std, b_value. rewrite B1, B2. cbn [rbind rmap]. split.
  - f_equal. unfold mags_of. rewrite M1, M2. unfold scale_l. rewrite !map_length. reflexivity.
  - intros H1 Hpos.
    assert (S1 : shi_bolt_confidence (mags_of o1) (Fin b) (o_weights o1) PB = sb_expr (Fin b) PB (wvar l) (wsum l)).
    { unfold mags_of. rewrite M1, W1. destruct wt eqn:Ewt.
      - rewrite shi_bolt_w. rewrite (proj2 (req_false _ _)) by lra. reflexivity.
      - rewrite shi_bolt_u; [reflexivity|exact Nl|]. intros p. apply (effective_one false ev eq_refl). }
    assert (S2 : shi_bolt_confidence (mags_of o2) (Fin (b / s)) (o_weights o2) PB = sb_expr (Fin (b / s)) PB (wvar (scale_l s l)) (wsum (scale_l s l))).
    { unfold mags_of. rewrite M2, W2. destruct wt eqn:Ewt.
      - rewrite shi_bolt_w. rewrite wsum_scale_l. rewrite (proj2 (req_false _ _)) by lra. reflexivity.
      - rewrite shi_bolt_u; [reflexivity|unfold scale_l; destruct l; [congruence|discriminate]|]. intros p Hpp.
        unfold scale_l in Hpp. apply in_map_iff in Hpp. destruct Hpp as (q & <- & Hq). cbn [snd].
        apply (effective_one false ev eq_refl _ _ _ Hq). }
    rewrite S1, S2, wsum_scale_l, wvar_scale_l. assert (V : 0 <= wvar l) by (apply wvar_nonneg; assumption).
    rewrite !sb_fin by (try discriminate; try assumption; apply Rmult_le_pos; nra).
    eexists. split; [reflexivity|]. do 2 f_equal.
    replace (s * s * wvar l / (wsum l - 1)) with (s * s * (wvar l / (wsum l - 1))) by (field; lra).
    rewrite sqrt_mult_alt by nra. rewrite sqrt_square by lra. field. lra.
Qed.
Print Assumptions C14_scale.
Theorem C14_small_events_irrelevant : forall srt k w w' wt ev extra mc delta o o' o1 o2 b1 b2, k = Classic \/ k = Utsu ->
  no_inf (map fst ev) ->
  (forall e, In e extra -> fst e = NaN \/ exists m, fst e = Fin m /\ m < mc - decR delta / 2) ->
  calculate srt k w (argsg wt ev mc delta) o = (o1, Ok b1) ->
  calculate srt k w' (argsg wt (ev ++ extra) mc delta) o' = (o2, Ok b2) ->
  b1 = b2 /\ est_n o1 = est_n o2 /\ est_std o1 = est_std o2 /\ est_std_beta o1 = est_std_beta o2.
Proof.
  intros srt k w w' wt ev extra mc delta o o' o1 o2 b1 b2 Hk Hi Hb C1 C2.
  assert (Hp : is_pos k = false) by (destruct Hk as [->| ->]; reflexivity).
  assert (Hi' : no_inf (map fst (ev ++ extra))).
  { intros v Hv. rewrite map_app in Hv. apply in_app_iff in Hv. destruct Hv as [Hv|Hv]; [apply Hi; exact Hv|].
    apply in_map_iff in Hv. destruct Hv as (e & <- & He). destruct (Hb e He) as [->|(m & -> & _)]; split; discriminate. }
  pose proof (calc_g srt k w wt ev mc delta o Hp Hi) as E1. rewrite C1 in E1.
  pose proof (calc_g srt k w' wt (ev ++ extra) mc delta o' Hp Hi') as E2. rewrite C2 in E2. cbn [snd] in E1, E2.
  apply final_g in C1; [|assumption|assumption]. apply final_g in C2; [|assumption|assumption].
  rewrite effective_app, complete_app in C2, E2.
  rewrite (complete_below mc (decR delta) (effective wt extra)) in C2, E2 by (apply effective_below; exact Hb).
  rewrite app_nil_r in C2, E2.
  destruct (check _); [|discriminate]. destruct (check _); [|discriminate]. cbn [rbind] in E1, E2.
  assert (b1 = b2) by congruence. subst b2. split; [reflexivity|].
  destruct C1 as (M1 & W1 & B1). destruct C2 as (M2 & W2 & B2).
  unfold est_n, est_std, est_std_beta, est_beta, b_value, mags_of. rewrite B1, B2, M1, M2, W1, W2. repeat split; reflexivity.
Qed.
Print Assumptions C14_small_events_irrelevant.
(** NaN events never make a difference, not even to the validation *)
Theorem C14_nan_events_irrelevant : forall srt k w w' wt ev extra mc delta o o', k = Classic \/ k = Utsu ->
  no_inf (map fst ev) -> ev <> [] -> (forall e, In e extra -> fst e = NaN /\ 0 <= snd e) ->
  snd (calculate srt k w (argsg wt ev mc delta) o) = snd (calculate srt k w' (argsg wt (ev ++ extra) mc delta) o').
Proof.
  intros srt k w w' wt ev extra mc delta o o' Hk Hi Hne Hx.
  assert (Hp : is_pos k = false) by (destruct Hk as [->| ->]; reflexivity).
  assert (Hi' : no_inf (map fst (ev ++ extra))).
  { intros v Hv. rewrite map_app in Hv. apply in_app_iff in Hv. destruct Hv as [Hv|Hv]; [apply Hi; exact Hv|].
    apply in_map_iff in Hv. destruct Hv as (e & <- & He). destruct (Hx e He) as [-> _]; split; discriminate. }
  rewrite !calc_g by assumption. rewrite effective_app, complete_app.
  rewrite (complete_below mc (decR delta) (effective wt extra)) by (apply effective_below; intros e He; left; apply Hx; exact He).
  rewrite app_nil_r.
  assert (U : check (argsu (map fst ev) mc delta) = check (argsu (map fst (ev ++ extra)) mc delta)).
  { apply (check_u_values _ _ mc mc 0); auto.
    - intros v. rewrite !in_fins, Rplus_0_r, map_app, in_app_iff. split; [tauto|]. intros [H|H]; [exact H|].
      apply in_map_iff in H. destruct H as (e & E & He). destruct (Hx e He) as [N _]. congruence.
    - destruct ev; [congruence|]. cbn. split; discriminate. }
  assert (C : check (argsg wt ev mc delta) = check (argsg wt (ev ++ extra) mc delta)).
  { destruct wt; cbn [argsg]; [|exact U]. rewrite !check_w, <- U. rewrite existsb_app.
    replace (existsb (fun e : event => rlt (snd e) 0) extra) with false; [rewrite orb_false_r; reflexivity|].
    symmetry. apply not_true_iff_false. intros F. apply existsb_exists in F. destruct F as (e & He & L).
    apply rlt_true in L. destruct (Hx e He). lra. }
  rewrite C. reflexivity.
Qed.
Print Assumptions C14_nan_events_irrelevant.
Example C14_example : forall e, In e [(NaN, 1); (Fin (-5), 2)] -> fst e = NaN \/ exists m, fst e = Fin m /\ m < 1 - decR (mkdec 1 0) / 2.
Proof. rewrite decR1. intros e [<-|[<-|[]]]; [left; reflexivity|right; exists (-5); split; [reflexivity|lra]]. Qed.

(** ** C15: unusable samples *)
(** for every arithmetic: if the input passes the validation and nothing reaches the
    threshold, the result is NaN and the estimator is empty *)
Theorem C15_unusable_sample_nan : forall T (N : Num T) srt k w (a : @args T) o,
  k = Classic \/ k = Utsu ->
  match a_mags a with [] => True | _ => binning_test (a_mags a) (a_delta a) (lit 1 15) false = Ok true end ->
  match a_weights a with None => True
  | Some ws => length ws = length (a_mags a) /\ (forall v, In v ws -> nltb v zero = false) end ->
  (forall m, In m (a_mags a) -> nleb (nsub (a_mc a) (ndiv (dec_val (a_delta a)) two)) m = false) ->
  exists o', calculate srt k w a o = (o', Ok nnan) /\
    b_value o' = Ok nnan /\ est_n o' = Ok 0%nat /\ o_mags o' = Some [] /\ o_idx o' = Some [] /\
    o_weights o' = option_map (fun _ => []) (a_weights a).
Proof.
  intros T N srt k w a o Hk Hb Hw Hm. assert (Hp : is_pos k = false) by (destruct Hk as [->| ->]; reflexivity).
  assert (Hc : check a = Ok tt).
  { unfold check. destruct (a_mags a) as [|x t] eqn:Ea.
    - cbn [rbind]. destruct (a_weights a) as [ws|]; [|reflexivity]. destruct Hw as [L V]. rewrite <- L, Nat.eqb_refl. cbn [negb].
      destruct ws; [reflexivity|discriminate].
    - rewrite Hb. cbn [rbind]. destruct (a_weights a) as [ws|]; [|reflexivity]. destruct Hw as [L V].
      rewrite <- L, Nat.eqb_refl. cbn [negb].
      destruct (existsb (fun v => nltb v zero) ws) eqn:X; [|reflexivity].
      apply existsb_exists in X. destruct X as (v & Hv & F). rewrite V in F by exact Hv. discriminate. }
  assert (K : keep a = map (fun _ => false) (a_mags a)).
  { unfold keep, thr. apply map_ext_in. exact Hm. }
  assert (Z : forall A (l : list A), compress (keep a) l = []).
  { intros A l. rewrite K. clear. revert l. induction (a_mags a) as [|m ms IH]; intros [|x l]; cbn; auto. }
  assert (I : f_idx a = []).
  { unfold f_idx, where_idx. rewrite K. clear. generalize 0%nat. induction (a_mags a) as [|m ms IH]; intros q; cbn; auto. }
  assert (R : run srt k a = Ok (mkout [] (f_weights a) [] None [] (f_weights a) nnan)).
  { unfold run. rewrite Hp. cbn [andb rbind]. rewrite Hc. cbn [rbind]. unfold f_times. rewrite Hp. cbn [rbind].
    unfold f_mags. rewrite Z, I. reflexivity. }
  pose proof (calculate_run srt k w a o) as C. rewrite R in C. destruct C as (o' & E & F). exists o'. split; [exact E|].
  destruct F as (F1 & _ & _ & F4 & F5 & F6 & _). cbn in F1, F4, F5, F6.
  unfold b_value, est_n, mags_of. unfold b_value. rewrite F6, F1. cbn. repeat split; auto.
  rewrite F4. unfold f_weights. destruct (a_weights a); cbn; [rewrite Z|]; reflexivity.
Qed.
Print Assumptions C15_unusable_sample_nan.
(** and without weights the uncertainty is NaN *)
Lemma std_nan_unweighted : forall o : @obj xr, b_value o = Ok NaN -> o_mags o = Some [] -> o_weights o = None ->
  est_std o = Ok NaN /\ est_std_beta o = Ok NaN.
Proof.
  intros o Hb Hm Hw. unfold est_std, est_std_beta, est_beta. rewrite Hb, Hw. cbn [rbind rmap].
  unfold mags_of. rewrite Hm. unfold shi_bolt_confidence, np_average. cbn [map]. rewrite x_mean_nil. cbn [rbind].
  split; f_equal; cbn.
  all: destruct (Rlt_dec 0 10); [|lra]; cbn; destruct (Rlt_dec (-1) 0); [reflexivity|lra].
Qed.
Theorem C15_std_nan_unweighted : forall srt k w (a : @args xr) o,
  k = Classic \/ k = Utsu -> a_weights a = None ->
  match a_mags a with [] => True | _ => binning_test (a_mags a) (a_delta a) (lit 1 15) false = Ok true end ->
  (forall m, In m (a_mags a) -> nleb (nsub (a_mc a) (ndiv (dec_val (a_delta a)) two)) m = false) ->
  exists o', calculate srt k w a o = (o', Ok NaN) /\ est_std o' = Ok NaN /\ est_std_beta o' = Ok NaN.
Proof.
  intros srt k w a o Hk Hw Hb Hm. destruct (C15_unusable_sample_nan xr XR srt k w a o Hk Hb) as (o' & E & B & _ & M & _ & W); [rewrite Hw; exact I|exact Hm|].
  exists o'. split; [exact E|]. rewrite Hw in W. apply std_nan_unweighted; assumption.
Qed.
Print Assumptions C15_std_nan_unweighted.
(** ** C165, C166 *)
(** with weights, reading the uncertainty of an empty sample raises ZeroDivisionError *)
Lemma weighted_std_raises : forall o : @obj xr, b_value o = Ok NaN -> o_mags o = Some [] -> o_weights o = Some [] ->
  est_std o = Err ZeroDivisionError.
Proof.
  intros o Hb Hm Hw. unfold est_std. rewrite Hb, Hw. cbn [rbind]. unfold mags_of. rewrite Hm.
  unfold shi_bolt_confidence, np_average. change (nsum []) with (Fin 0). rewrite x_zero, x_eqb, (proj2 (req_true 0 0)) by reflexivity. reflexivity.
Qed.
Theorem C165_weighted_std_raises_refuted : forall srt k w (a : @args xr) o ws,
  k = Classic \/ k = Utsu -> a_weights a = Some ws -> length ws = length (a_mags a) -> (forall v, In v ws -> nltb v zero = false) ->
  match a_mags a with [] => True | _ => binning_test (a_mags a) (a_delta a) (lit 1 15) false = Ok true end ->
  (forall m, In m (a_mags a) -> nleb (nsub (a_mc a) (ndiv (dec_val (a_delta a)) two)) m = false) ->
  exists o', calculate srt k w a o = (o', Ok NaN) /\ est_std o' = Err ZeroDivisionError.
Proof.
  intros srt k w a o ws Hk Hw L V Hb Hm. destruct (C15_unusable_sample_nan xr XR srt k w a o Hk Hb) as (o' & E & B & _ & M & _ & W); [rewrite Hw; auto|exact Hm|].
  exists o'. split; [exact E|]. rewrite Hw in W. apply weighted_std_raises; assumption.
Qed.
Print Assumptions C165_weighted_std_raises_refuted.
(** a sample that consists of NaN only raises ValueError instead of giving NaN *)
Theorem C166_all_nan_raises_refuted : forall srt k w wt (ev : list event) mc delta o, k = Classic \/ k = Utsu -> ev <> [] ->
  (forall e, In e ev -> fst e = NaN) ->
  snd (calculate srt k w (argsg wt ev mc delta) o) = Err ValueError.
Proof.
  intros srt k w wt ev mc delta o Hk Hne Hn. assert (Hp : is_pos k = false) by (destruct Hk as [->| ->]; reflexivity).
  assert (Hi : no_inf (map fst ev)) by (intros v Hv; apply in_map_iff in Hv; destruct Hv as (e & <- & He); rewrite (Hn e He); split; discriminate).
  assert (F : fins (map fst ev) = []).
  { destruct (fins (map fst ev)) as [|v l] eqn:E; [reflexivity|]. exfalso.
    assert (In v (fins (map fst ev))) by (rewrite E; left; reflexivity). apply in_fins in H. apply in_map_iff in H.
    destruct H as (e & E1 & He). rewrite (Hn e He) in E1. discriminate. }
  assert (C : check (argsu (map fst ev) mc delta) = Err ValueError).
  { rewrite check_u. destruct (map fst ev) eqn:E; [destruct ev; [congruence|discriminate]|].
    rewrite binning_test_all_nan by assumption. reflexivity. }
  rewrite calc_g by assumption. destruct wt; cbn [argsg]; [rewrite check_w|]; rewrite C; reflexivity.
Qed.
Print Assumptions C166_all_nan_raises_refuted.
(** the weighted case does occur *)
Example C15_example : exists o', calculate ex_srt Classic true (argsg true ex_ev 5 (mkdec 1 0)) new_obj = (o', Ok NaN) /\
  est_std o' = Err ZeroDivisionError.
Proof.
  destruct (C15_unusable_sample_nan xr XR ex_srt Classic true (argsg true ex_ev 5 (mkdec 1 0)) new_obj) as (o' & E & B & _ & M & _ & W).
  - left; reflexivity.
  - pose proof (ex_check false) as C. cbn [argsg] in C. rewrite check_u in C.
    cbn [argsg argsw a_mags a_delta]. rewrite x_lit. change (IZR 1 / IZR (10 ^ Z.of_nat 15)) with tol15.
    destruct (map fst ex_ev) eqn:Em; [exact I|]. destruct (binning_test _ _ _ _) as [[]|]; [reflexivity|discriminate|discriminate].
  - cbn. split; [reflexivity|]. intros v [<-|[<-|[<-|[<-|[]]]]]; cbn; apply rlt_false; lra.
  - cbn [argsg argsw a_mags a_mc a_delta]. intros m Hm. rewrite thr_fin, decR1.
    destruct Hm as [<-|[<-|[<-|[<-|[]]]]]; try reflexivity; cbn [fst]; rewrite x_leb; apply rle_false; lra.
  - exists o'. split; [exact E|]. apply weighted_std_raises; assumption.
Qed.

