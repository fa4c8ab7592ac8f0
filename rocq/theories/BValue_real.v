(** * The classic and Utsu estimators on exact reals (with NaN magnitudes) *)
From Coq Require Import Reals Lra List Permutation Lia Bool ZArith Sorted.
From Verif Require Import Base Num XR RList SortLib Binning_model Spec_Binning Binning_proofs BinTest_proofs
  BValue_model BValue_run Spec_BValue.
Import ListNotations.
Open Scope R_scope.

(** arguments of calculate for a list of events *)
Definition argsw (ev : list event) (mc : R) (delta : dec) : @args xr :=
  mkargs (map fst ev) (Fin mc) delta (Some (map (fun e => Fin (snd e)) ev)) None None.
Definition argsu (ms : list xr) (mc : R) (delta : dec) : @args xr :=
  mkargs ms (Fin mc) delta None None None.
Definition unit_events (ms : list xr) : list event := map (fun m => (m, 1)) ms.

Lemma fst_unit ms : map fst (unit_events ms) = ms.
Proof. unfold unit_events. rewrite map_map. cbn. apply map_id. Qed.

Lemma half_two x : nsub (Fin x) (ndiv (Fin 0) two) = Fin (x - 0/2).
Proof. rewrite x_two, x_div by lra. reflexivity. Qed.

Lemma thr_fin mc delta : nsub (Fin mc) (ndiv (dec_val delta) two) = Fin (mc - decR delta / 2).
Proof. rewrite x_dec_val, x_two, x_div by lra. reflexivity. Qed.

Lemma keep_events (ev : list event) mc delta : no_inf (map fst ev) ->
  compress (map (fun m => nleb (Fin (mc - decR delta / 2)) m) (map fst ev)) ev
  = map (fun p => (Fin (fst p), snd p)) (complete mc (decR delta) ev).
Proof.
  induction ev as [|[m w] ev IH]; intros H; [reflexivity|].
  assert (H' : no_inf (map fst ev)) by (intros v Hv; apply H; right; exact Hv).
  specialize (IH H'). destruct (H m (or_introl eq_refl)) as [H1 H2].
  cbn [map compress fst]. unfold complete in *. cbn [flat_map fst snd].
  destruct m as [m| | |]; try congruence.
  - rewrite x_leb. destruct (rle (mc - decR delta / 2) m); cbn [app map]; rewrite IH; reflexivity.
  - cbn [nleb XR xleb app map]. exact IH.
Qed.

Lemma f_mags_w ev mc delta : no_inf (map fst ev) ->
  f_mags (argsw ev mc delta) = map (fun p => Fin (fst p)) (complete mc (decR delta) ev).
Proof.
  intros H. unfold f_mags, keep, thr, argsw; cbn [a_mags a_mc a_delta].
  rewrite thr_fin, compress_map, keep_events, map_map by exact H. reflexivity.
Qed.
Lemma f_weights_w ev mc delta : no_inf (map fst ev) ->
  f_weights (argsw ev mc delta) = Some (map (fun p => Fin (snd p)) (complete mc (decR delta) ev)).
Proof.
  intros H. unfold f_weights, keep, thr, argsw; cbn [a_mags a_mc a_delta a_weights option_map].
  rewrite thr_fin, compress_map, keep_events, map_map by exact H. reflexivity.
Qed.
Lemma f_mags_u ms mc delta : no_inf ms ->
  f_mags (argsu ms mc delta) = map (fun p => Fin (fst p)) (complete mc (decR delta) (unit_events ms)).
Proof.
  intros H. rewrite <- (f_mags_w (unit_events ms) mc delta) by (rewrite fst_unit; exact H).
  unfold f_mags, keep, thr, argsu, argsw; cbn [a_mags a_mc a_delta]. rewrite fst_unit. reflexivity.
Qed.

(** average excess over mc *)
Definition excess (mc : R) (l : list (R * R)) : R := Rsum (map (fun p => snd p * (fst p - mc)) l) / wsum l.

Definition est_val (k : kind) (x d : R) : xr :=
  match k with
  | Utsu => beta_to_b_value (ndiv one (Fin (x + d / 2)))
  | _ => beta_to_b_value (if rlt 0 d then nmul (ndiv one (Fin d)) (nln (nadd one (ndiv (Fin d) (Fin x))))
                          else ndiv one (Fin x))
  end.

Lemma x_average (f : R * R -> R) l : np_average (map (fun p => Fin (f p)) l) (Some (map (fun p => Fin (snd p)) l))
  = if req (wsum l) 0 then Err ZeroDivisionError else Ok (Fin (Rsum (map (fun p => snd p * f p) l) / wsum l)).
Proof.
  unfold np_average. rewrite <- (map_map snd Fin), x_sum, x_zero, x_eqb. fold (wsum l).
  destruct (req (wsum l) 0) eqn:E; [reflexivity|]. apply req_false in E. f_equal.
  assert (M : map2 nmul (map (fun p => Fin (f p)) l) (map Fin (map snd l)) = map Fin (map (fun p => snd p * f p) l)).
  { clear. induction l as [|p l IH]; [reflexivity|]. cbn [map map2]. rewrite IH, x_mul. f_equal. f_equal. lra. }
  rewrite M, x_sum, x_div by exact E. reflexivity.
Qed.
Lemma x_average_u (f : R * R -> R) l : l <> [] -> (forall p, In p l -> snd p = 1) ->
  np_average (map (fun p => Fin (f p)) l) None
  = Ok (Fin (Rsum (map (fun p => snd p * f p) l) / wsum l)).
Proof.
  intros Hl H1. unfold np_average. rewrite <- (map_map f Fin), x_mean by (destruct l; [congruence|discriminate]).
  do 3 f_equal.
  - apply Rsum_map_ext. intros p Hp. rewrite H1 by exact Hp. lra.
  - f_equal. unfold wsum. rewrite map_length. rewrite (Rsum_map_ext snd (fun _ => 1)) by exact H1.
    rewrite Rsum_map_const. lra.
Qed.
Lemma wsum_units l : (forall p : R * R, In p l -> snd p = 1) -> wsum l = INR (length l).
Proof.
  intros H. unfold wsum. rewrite (Rsum_map_ext snd (fun _ => 1)) by exact H. rewrite Rsum_map_const. lra.
Qed.

Lemma excess_shift mc c l : wsum l <> 0 ->
  Rsum (map (fun p => snd p * (fst p - mc + c)) l) / wsum l = excess mc l + c.
Proof.
  intros H. unfold excess. rewrite (Rsum_map_ext _ (fun p => snd p * (fst p - mc) + c * snd p)) by (intros; ring).
  rewrite Rsum_map_plus, Rsum_map_scal. fold (wsum l). field. exact H.
Qed.
Lemma excess_wmean mc l : wsum l <> 0 -> excess mc l = wmean l - mc.
Proof.
  intros H. unfold excess, wmean. rewrite (Rsum_map_ext _ (fun p => snd p * fst p + (- mc) * snd p)) by (intros; ring).
  rewrite Rsum_map_plus, Rsum_map_scal. fold (wsum l). field. exact H.
Qed.

Lemma complete_units ms mc d p : In p (complete mc d (unit_events ms)) -> snd p = 1.
Proof.
  unfold complete, unit_events. rewrite in_flat_map. intros ((m & w) & H & Hp).
  apply in_map_iff in H. destruct H as (m' & E & _). injection E as <- <-. cbn in Hp.
  destruct m'; try contradiction. destruct (rle _ _); [|contradiction]. destruct Hp as [<-|[]]. reflexivity.
Qed.

Definition est_core (k : kind) (mc : R) (delta : dec) (l : list (R * R)) : res xr :=
  if req (wsum l) 0 then Err ZeroDivisionError else Ok (est_val k (excess mc l) (decR delta)).

Lemma estimator_w k mc delta l : is_pos k = false ->
  (match k with Utsu => utsu_estimator | _ => mle_estimator end)
     (map (fun p => Fin (fst p)) l) (Fin mc) delta (Some (map (fun p => Fin (snd p)) l))
  = est_core k mc delta l.
Proof.
  intros Hk. unfold est_core. destruct k; try discriminate.
  - unfold mle_estimator. rewrite map_map.
    replace (map (fun x : R * R => nsub (Fin (fst x)) (Fin mc)) l) with (map (fun p : R * R => Fin (fst p - mc)) l) by reflexivity.
    rewrite x_average. destruct (req (wsum l) 0); [reflexivity|]. cbn [rbind]. unfold est_val.
    rewrite x_dec_val, x_zero, x_ltb. reflexivity.
  - unfold utsu_estimator. rewrite map_map. rewrite x_dec_val, x_two, x_div by lra.
    replace (map (fun x : R * R => nadd (nsub (Fin (fst x)) (Fin mc)) (Fin (decR delta / 2))) l)
       with (map (fun p : R * R => Fin (fst p - mc + decR delta / 2)) l) by reflexivity.
    rewrite x_average. destruct (req (wsum l) 0) eqn:E; [reflexivity|]. cbn [rbind]. unfold est_val.
    apply req_false in E. rewrite excess_shift by exact E. reflexivity.
Qed.
Lemma estimator_u k mc delta l : is_pos k = false -> l <> [] -> (forall p, In p l -> snd p = 1) ->
  (match k with Utsu => utsu_estimator | _ => mle_estimator end)
     (map (fun p => Fin (fst p)) l) (Fin mc) delta None
  = est_core k mc delta l.
Proof.
  intros Hk Hl H1. unfold est_core.
  assert (Hw : wsum l <> 0) by (rewrite wsum_units by exact H1; apply not_0_INR; destruct l; [congruence|discriminate]).
  rewrite (proj2 (req_false _ _) Hw). destruct k; try discriminate.
  - unfold mle_estimator. rewrite map_map.
    replace (map (fun x : R * R => nsub (Fin (fst x)) (Fin mc)) l) with (map (fun p : R * R => Fin (fst p - mc)) l) by reflexivity.
    rewrite x_average_u by assumption. cbn [rbind]. unfold est_val.
    rewrite x_dec_val, x_zero, x_ltb. reflexivity.
  - unfold utsu_estimator. rewrite map_map. rewrite x_dec_val, x_two, x_div by lra.
    replace (map (fun x : R * R => nadd (nsub (Fin (fst x)) (Fin mc)) (Fin (decR delta / 2))) l)
       with (map (fun p : R * R => Fin (fst p - mc + decR delta / 2)) l) by reflexivity.
    rewrite x_average_u by assumption. cbn [rbind]. unfold est_val. rewrite excess_shift by exact Hw. reflexivity.
Qed.

Section Fixed.
Variable srt : list xr -> list nat.

Lemma calc_snd k w a o : snd (calculate srt k w a o) = rmap u_b (run srt k a).
Proof.
  pose proof (calculate_run srt k w a o) as H. destruct (run srt k a) as [u|e]; destruct H as (o' & -> & _); reflexivity.
Qed.

Definition core (k : kind) (mc : R) (delta : dec) (l : list (R * R)) : res xr :=
  match l with [] => Ok NaN | _ => est_core k mc delta l end.

Lemma calc_w k w ev mc delta o : is_pos k = false -> no_inf (map fst ev) ->
  snd (calculate srt k w (argsw ev mc delta) o)
  = let? _ := check (argsw ev mc delta) in core k mc delta (complete mc (decR delta) ev).
Proof.
  intros Hk H. rewrite calc_snd. unfold run. rewrite Hk. cbn [andb rbind].
  destruct (check (argsw ev mc delta)) as [[]|e]; [|reflexivity]. cbn [rbind].
  unfold f_times. rewrite Hk. cbn [rbind].
  rewrite f_mags_w, f_weights_w by exact H.
  pose proof (estimator_w k mc delta (complete mc (decR delta) ev) Hk) as E.
  destruct (complete mc (decR delta) ev) as [|p l] eqn:Ec; [reflexivity|].
  cbn [core]. rewrite <- E. clear E Ec. cbn [map].
  destruct k; try discriminate; cbn [run_est argsw a_mc a_delta].
  - destruct (mle_estimator _ _ _ _); reflexivity.
  - destruct (utsu_estimator _ _ _ _); reflexivity.
Qed.
Lemma calc_u k w ms mc delta o : is_pos k = false -> no_inf ms ->
  snd (calculate srt k w (argsu ms mc delta) o)
  = let? _ := check (argsu ms mc delta) in core k mc delta (complete mc (decR delta) (unit_events ms)).
Proof.
  intros Hk H. rewrite calc_snd. unfold run. rewrite Hk. cbn [andb rbind].
  destruct (check (argsu ms mc delta)) as [[]|e]; [|reflexivity]. cbn [rbind].
  unfold f_times. rewrite Hk. cbn [rbind]. rewrite f_mags_u by exact H.
  change (f_weights (argsu ms mc delta)) with (@None (list xr)).
  pose proof (complete_units ms mc (decR delta)) as U.
  pose proof (estimator_u k mc delta (complete mc (decR delta) (unit_events ms)) Hk) as E.
  destruct (complete mc (decR delta) (unit_events ms)) as [|p l] eqn:Ec; [reflexivity|].
  specialize (E ltac:(discriminate) U).
  cbn [core]. rewrite <- E. clear E Ec. cbn [map].
  destruct k; try discriminate; cbn [run_est argsu a_mc a_delta].
  - destruct (mle_estimator _ _ _ _); reflexivity.
  - destruct (utsu_estimator _ _ _ _); reflexivity.
Qed.

(** the final state *)
Lemma final_w k w ev mc delta o o' b : is_pos k = false -> no_inf (map fst ev) ->
  calculate srt k w (argsw ev mc delta) o = (o', Ok b) ->
  o_mags o' = Some (map (fun p => Fin (fst p)) (complete mc (decR delta) ev)) /\
  o_weights o' = Some (map (fun p => Fin (snd p)) (complete mc (decR delta) ev)) /\ o_b o' = Some b.
Proof.
  intros Hk H E. pose proof (calculate_run srt k w (argsw ev mc delta) o) as R.
  destruct (run srt k (argsw ev mc delta)) as [u|e] eqn:Er; destruct R as (o1 & E1 & F); rewrite E in E1; [|discriminate].
  injection E1 as <- ->. destruct F as (F1 & F2 & F3 & F4 & F5 & F6 & _).
  unfold run in Er. rewrite Hk in Er. cbn [andb rbind] in Er.
  destruct (check _); [|discriminate]. cbn [rbind] in Er. unfold f_times in Er. rewrite Hk in Er. cbn [rbind] in Er.
  rewrite f_mags_w, f_weights_w in Er by exact H.
  assert (G : u_mags u = map (fun p => Fin (fst p)) (complete mc (decR delta) ev) /\
              u_weights u = Some (map (fun p => Fin (snd p)) (complete mc (decR delta) ev))).
  { destruct (map (fun p => Fin (fst p)) (complete mc (decR delta) ev)) eqn:Em; [injection Er as <-; auto|].
    destruct k; try discriminate; cbn [run_est] in Er.
    - destruct (mle_estimator _ _ _ _); [|discriminate]. injection Er as <-. auto.
    - destruct (utsu_estimator _ _ _ _); [|discriminate]. injection Er as <-. auto. }
  destruct G as [G1 G2]. repeat split; congruence.
Qed.
Lemma final_u k w ms mc delta o o' b : is_pos k = false -> no_inf ms ->
  calculate srt k w (argsu ms mc delta) o = (o', Ok b) ->
  o_mags o' = Some (map (fun p => Fin (fst p)) (complete mc (decR delta) (unit_events ms))) /\
  o_weights o' = None /\ o_b o' = Some b.
Proof.
  intros Hk H E. pose proof (calculate_run srt k w (argsu ms mc delta) o) as R.
  destruct (run srt k (argsu ms mc delta)) as [u|e] eqn:Er; destruct R as (o1 & E1 & F); rewrite E in E1; [|discriminate].
  injection E1 as <- ->. destruct F as (F1 & F2 & F3 & F4 & F5 & F6 & _).
  unfold run in Er. rewrite Hk in Er. cbn [andb rbind] in Er.
  destruct (check _); [|discriminate]. cbn [rbind] in Er. unfold f_times in Er. rewrite Hk in Er. cbn [rbind] in Er.
  rewrite f_mags_u in Er by exact H. change (f_weights (argsu ms mc delta)) with (@None (list xr)) in Er.
  assert (G : u_mags u = map (fun p => Fin (fst p)) (complete mc (decR delta) (unit_events ms)) /\
              u_weights u = None).
  { destruct (map (fun p => Fin (fst p)) (complete mc (decR delta) (unit_events ms))) eqn:Em; [injection Er as <-; auto|].
    destruct k; try discriminate; cbn [run_est] in Er.
    - destruct (mle_estimator _ _ _ _); [|discriminate]. injection Er as <-. auto.
    - destruct (utsu_estimator _ _ _ _); [|discriminate]. injection Er as <-. auto. }
  destruct G as [G1 G2]. repeat split; congruence.
Qed.
End Fixed.

(** ** the input check *)
Definition tol15 : R := 1 / IZR (10 ^ 15).
Lemma check_u ms mc delta : check (argsu ms mc delta) =
  match ms with [] => Ok tt | _ => let? b := binning_test ms delta (Fin tol15) false in if b then Ok tt else Err ValueError end.
Proof.
  unfold check, argsu; cbn [a_mags a_weights a_delta]. rewrite x_lit. change (IZR 1 / IZR (10 ^ Z.of_nat 15)) with tol15.
  destruct ms; [reflexivity|]. destruct (binning_test _ _ _ _) as [[]|]; reflexivity.
Qed.
Lemma check_w ev mc delta : check (argsw ev mc delta) =
  let? _ := check (argsu (map fst ev) mc delta) in
  if existsb (fun e => rlt (snd e) 0) ev then Err ValueError else Ok tt.
Proof.
  unfold check, argsu, argsw; cbn [a_mags a_weights a_delta].
  match goal with |- rbind ?X _ = _ => destruct X as [u|e]; [|reflexivity] end. cbn [rbind].
  rewrite !map_length, Nat.eqb_refl. cbn [negb].
  replace (existsb (fun v => nltb v zero) (map (fun e => Fin (snd e)) ev)) with (existsb (fun e : event => rlt (snd e) 0) ev); [reflexivity|].
  clear. induction ev as [|e ev IH]; [reflexivity|]. cbn [map existsb]. rewrite <- IH, x_zero, x_ltb. reflexivity.
Qed.
Lemma check_u_values ms ms' mc mc' c delta : no_inf ms -> no_inf ms' -> same_values_up_to c ms ms' ->
  (ms = [] <-> ms' = []) -> check (argsu ms mc delta) = check (argsu ms' mc' delta).
Proof.
  intros H H' S E. rewrite !check_u.
  destruct ms as [|m ms]; [destruct ms' as [|m' ms']; [reflexivity|]; specialize (proj1 E eq_refl); discriminate|].
  destruct ms' as [|m' ms']; [specialize (proj2 E eq_refl); discriminate|].
  rewrite (binning_test_values (m :: ms) (m' :: ms') c) by assumption. reflexivity.
Qed.
(** samples on a grid with spacing delta pass the check *)
Lemma check_grid ms mc delta base : epsR <= decR delta ->
  (forall m, In m ms -> exists k : Z, m = base + IZR k * decR delta) ->
  check (argsu (map Fin ms) mc delta) = Ok tt.
Proof.
  intros Hd G. rewrite check_u. destruct ms as [|m0 ms]; [reflexivity|].
  assert (Ht : tol15 <= decR delta) by (unfold tol15, epsR in *; simpl in *; lra).
  pose proof epsR_bounds.
  cbn [map]. change (Fin m0 :: map Fin ms) with (map Fin (m0 :: ms)).
  rewrite binning_test_unfold_nz; [|apply no_inf_map_Fin|rewrite fins_map_Fin; discriminate|right; reflexivity].
  rewrite fins_map_Fin, binning_test_delta_fin by assumption. cbn [rbind].
  replace (delta_res _ _ _ _) with true; [reflexivity|]. symmetry. unfold delta_res. rewrite andb_true_r.
  apply forallb_forall. intros y Hy. destruct (is_min_exists (m0 :: ms) ltac:(discriminate)) as (mn & Hmn).
  apply (shiftR_in _ mn) in Hy; [|exact Hmn]. destruct Hy as (v & Hv & ->).
  destruct (G v Hv) as (k1 & ->). destruct (G mn (proj1 Hmn)) as (k2 & ->).
  replace (base + IZR k1 * decR delta - (base + IZR k2 * decR delta)) with (IZR (k1 - k2) * decR delta) by (rewrite minus_IZR; ring).
  unfold closeb. apply rle_true. rewrite binR_grid by lra. rewrite Rminus_diag_eq, Rabs_R0 by reflexivity.
  pose proof (Rabs_pos (IZR (k1 - k2) * decR delta)). unfold tol15, relR; simpl; lra.
Qed.
Lemma check_zero ms mc delta : decR delta = 0 -> fins ms <> [] -> no_inf ms -> check (argsu ms mc delta) = Ok tt.
Proof.
  intros Hd Hf Hi. rewrite check_u. destruct ms as [|m ms]; [reflexivity|].
  rewrite binning_test_unfold_nz by (auto). rewrite binning_test_delta_small; [reflexivity|]. rewrite Hd. unfold tol15; simpl; lra.
Qed.
