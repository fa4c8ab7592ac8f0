(** * Consequences for the classic and Utsu estimators *)
From Coq Require Import Reals Lra List Permutation Lia Bool ZArith Sorted.
From Verif Require Import Base Num XR RList SortLib Binning_model Spec_Binning Binning_proofs BinTest_proofs
  BValue_model BValue_run Spec_BValue BValue_real Likelihood.
Import ListNotations.
Open Scope R_scope.

(** ** any arithmetic *)
Section AnyNum.
  Context {T : Type} {N : Num T}.

  Lemma picks_keep (a : @args T) :
    picks (fun m => nleb (nsub (a_mc a) (ndiv (dec_val (a_delta a)) two)) m = true) (a_mags a) (f_idx a) (f_mags a).
  Proof.
    split; [apply where_from_sorted|]. split.
    - intros i. unfold f_idx. rewrite where_idx_in. unfold keep. rewrite nth_error_map.
      destruct (nth_error (a_mags a) i) as [m|]; cbn; split.
      + intros E. injection E as E. exists m. auto.
      + intros (x & E & H). injection E as <-. rewrite <- H. reflexivity.
      + discriminate.
      + intros (x & E & _). discriminate.
    - apply gather_spec. unfold f_idx, f_mags. apply gather_where. apply keep_length.
  Qed.
  Lemma weights_keep (a : @args T) ws : a_weights a = Some ws -> length ws = length (a_mags a) ->
    at_positions ws (f_idx a) (compress (keep a) ws).
  Proof. intros E L. apply gather_spec. apply gather_where. rewrite keep_length. congruence. Qed.

  Lemma run_cases srt k (a : @args T) u : run srt k a = Ok u -> check a = Ok tt /\
    (is_pos k = false -> u_mags u = f_mags a /\ u_idx u = f_idx a /\ u_weights u = f_weights a).
  Proof.
    unfold run. destruct (is_pos k && _); [discriminate|]. cbn [rbind].
    destruct (check a) as [[]|]; [|discriminate]. cbn [rbind]. intros H. split; [reflexivity|]. intros Hk.
    unfold f_times in H. rewrite Hk in H. cbn [rbind] in H.
    destruct (f_mags a) eqn:Em; [injection H as <-; auto|]. destruct k; try discriminate; cbn [run_est] in H.
    - destruct (mle_estimator _ _ _ _); [|discriminate]. injection H as <-. auto.
    - destruct (utsu_estimator _ _ _ _); [|discriminate]. injection H as <-. auto.
  Qed.

  Lemma calculate_inv srt k w (a : @args T) o o' r : calculate srt k w a o = (o', r) ->
    match r with
    | Ok b => exists u, run srt k a = Ok u /\ b = u_b u /\ final k a u o o'
    | Err e => run srt k a = Err e /\ o_b o' = o_b o
    end.
  Proof.
    intros E. pose proof (calculate_run srt k w a o) as H.
    destruct (run srt k a) as [u|e]; destruct H as (o1 & E1 & F); rewrite E in E1; injection E1 as -> ->; eauto.
  Qed.
End AnyNum.

(** ** permutations *)
Lemma complete_perm mc d ev ev' : Permutation ev ev' -> Permutation (complete mc d ev) (complete mc d ev').
Proof. intros P. unfold complete. apply Permutation_flat_map. exact P. Qed.
Lemma wsum_perm l l' : Permutation l l' -> wsum l = wsum l'.
Proof. intros P. apply Rsum_perm. apply Permutation_map. exact P. Qed.
Lemma excess_perm mc l l' : Permutation l l' -> excess mc l = excess mc l'.
Proof. intros P. unfold excess. rewrite (wsum_perm l l' P). f_equal. apply Rsum_perm. apply Permutation_map. exact P. Qed.
Lemma core_perm k mc delta l l' : Permutation l l' -> core k mc delta l = core k mc delta l'.
Proof.
  intros P. unfold core. destruct l as [|p l]; [apply Permutation_nil in P as ->; reflexivity|].
  destruct l' as [|p' l']; [apply Permutation_sym, Permutation_nil in P; discriminate|].
  unfold est_core. rewrite (wsum_perm _ _ P), (excess_perm mc _ _ P). reflexivity.
Qed.
Lemma in_fins v x : In v (fins x) <-> In (Fin v) x.
Proof.
  induction x as [|y x IH]; cbn; [tauto|]. destruct y; cbn; rewrite IH; split; intros H; intuition congruence.
Qed.
Lemma same_values_perm x y : Permutation x y -> same_values_up_to 0 x y.
Proof.
  intros P v. rewrite !in_fins, Rplus_0_r. split; intros H; [apply Permutation_in with x|apply Permutation_in with y]; auto using Permutation_sym.
Qed.
Lemma no_inf_perm x y : Permutation x y -> no_inf x -> no_inf y.
Proof. intros P H v Hv. apply H. apply Permutation_in with y; auto using Permutation_sym. Qed.
Lemma existsb_perm {A} (f : A -> bool) l l' : Permutation l l' -> existsb f l = existsb f l'.
Proof.
  intros P. destruct (existsb f l) eqn:E; symmetry.
  - apply existsb_exists in E. destruct E as (x & Hx & F). apply existsb_exists. exists x. split; [apply Permutation_in with l; assumption|exact F].
  - apply not_true_iff_false. intros F. apply existsb_exists in F. destruct F as (x & Hx & F).
    apply not_true_iff_false in E. apply E. apply existsb_exists. exists x. split; [apply Permutation_in with l'; auto using Permutation_sym|exact F].
Qed.
Lemma perm_nil_iff {A} (x y : list A) : Permutation x y -> (x = [] <-> y = []).
Proof.
  intros P. split; intros ->; [apply Permutation_nil; exact P|apply Permutation_nil; apply Permutation_sym; exact P].
Qed.
Lemma check_u_perm ms ms' mc delta : no_inf ms -> Permutation ms ms' -> check (argsu ms mc delta) = check (argsu ms' mc delta).
Proof.
  intros H P. apply (check_u_values ms ms' mc mc 0); auto.
  - apply no_inf_perm with ms; assumption.
  - apply same_values_perm; assumption.
  - apply perm_nil_iff; assumption.
Qed.
Lemma check_w_perm ev ev' mc delta : no_inf (map fst ev) -> Permutation ev ev' ->
  check (argsw ev mc delta) = check (argsw ev' mc delta).
Proof.
  intros H P. rewrite !check_w. rewrite (check_u_perm (map fst ev) (map fst ev')); [|exact H|apply Permutation_map; exact P].
  rewrite (existsb_perm _ ev ev') by exact P. reflexivity.
Qed.

(** ** Shi-Bolt *)
Definition wvar (l : list (R * R)) : R := Rsum (map (fun p => snd p * Rsqr (fst p - wmean l)) l) / wsum l.
Definition sb_expr (b : xr) (par : bparam) (var W : R) : res xr :=
  match par with
  | POther => Err ValueError
  | _ => let s := ndiv (nmul (nmul (nln (ofZ 10)) (square b)) (nsqrt (Fin var))) (nsqrt (nsub (Fin W) one)) in
         Ok (match par with PBeta => ndiv s (nln (ofZ 10)) | _ => s end)
  end.
Lemma shi_bolt_w l b par : shi_bolt_confidence (map (fun p => Fin (fst p)) l) b (Some (map (fun p => Fin (snd p)) l)) par
  = match par with POther => Err ValueError | _ => if req (wsum l) 0 then Err ZeroDivisionError else sb_expr b par (wvar l) (wsum l) end.
Proof.
  unfold shi_bolt_confidence. destruct par; try reflexivity.
  all: rewrite x_average; destruct (req (wsum l) 0) eqn:E; [reflexivity|]; cbn [rbind]; fold (wmean l);
    rewrite map_map;
    replace (map (fun x : R * R => square (nsub (Fin (fst x)) (Fin (wmean l)))) l)
      with (map (fun p : R * R => Fin (Rsqr (fst p - wmean l))) l) by reflexivity;
    rewrite x_average, E; cbn [rbind]; rewrite <- (map_map snd Fin), x_sum; reflexivity.
Qed.
Lemma shi_bolt_u l b par : l <> [] -> (forall p, In p l -> snd p = 1) ->
  shi_bolt_confidence (map (fun p => Fin (fst p)) l) b None par
  = match par with POther => Err ValueError | _ => sb_expr b par (wvar l) (wsum l) end.
Proof.
  intros Hl H1. unfold shi_bolt_confidence. destruct par; try reflexivity.
  all: rewrite x_average_u by assumption; cbn [rbind]; fold (wmean l);
    rewrite map_map;
    replace (map (fun x : R * R => square (nsub (Fin (fst x)) (Fin (wmean l)))) l)
      with (map (fun p : R * R => Fin (Rsqr (fst p - wmean l))) l) by reflexivity;
    rewrite x_average_u by assumption; cbn [rbind];
    rewrite map_length, x_ofnat, <- (wsum_units l) by assumption; reflexivity.
Qed.
Lemma wmean_perm l l' : Permutation l l' -> wmean l = wmean l'.
Proof. intros P. unfold wmean. rewrite (wsum_perm l l' P). f_equal. apply Rsum_perm. apply Permutation_map. exact P. Qed.
Lemma wvar_perm l l' : Permutation l l' -> wvar l = wvar l'.
Proof.
  intros P. unfold wvar. rewrite (wsum_perm l l' P), (wmean_perm l l' P). f_equal. apply Rsum_perm. apply Permutation_map. exact P.
Qed.
Definition shift_l (c : R) (l : list (R * R)) := map (fun p => (fst p + c, snd p)) l.
Lemma wsum_shift c l : wsum (shift_l c l) = wsum l.
Proof. unfold wsum, shift_l. rewrite map_map. reflexivity. Qed.
Lemma wmean_shift c l : wsum l <> 0 -> wmean (shift_l c l) = wmean l + c.
Proof.
  intros H. unfold wmean. rewrite wsum_shift. unfold shift_l. rewrite map_map. cbn [fst snd].
  rewrite (Rsum_map_ext _ (fun p => snd p * fst p + c * snd p)) by (intros; ring).
  rewrite Rsum_map_plus, Rsum_map_scal. fold (wsum l). field. exact H.
Qed.
Lemma wvar_shift c l : wsum l <> 0 -> wvar (shift_l c l) = wvar l.
Proof.
  intros H. unfold wvar. rewrite wsum_shift, wmean_shift by exact H. unfold shift_l. rewrite map_map. cbn [fst snd].
  f_equal. apply Rsum_map_ext. intros p _. f_equal. f_equal. ring.
Qed.
Lemma wvar_nonneg l : 0 < wsum l -> (forall p, In p l -> 0 <= snd p) -> 0 <= wvar l.
Proof.
  intros HW Hp. unfold wvar. apply Rmult_le_pos; [|left; apply Rinv_0_lt_compat; exact HW].
  apply Rsum_nonneg. intros x Hx. apply in_map_iff in Hx. destruct Hx as (p & <- & H).
  apply Rmult_le_pos; [apply Hp; exact H|apply Rle_0_sqr].
Qed.
Lemma sb_fin b par var W : 0 <= var -> 1 < W -> par <> POther ->
  sb_expr (Fin b) par var W = Ok (Fin (match par with PBeta => 1 | _ => ln 10 end * (b * b) * sqrt (var / (W - 1)))).
Proof.
  intros Hv HW Hp. unfold sb_expr. rewrite x_ofZ, x_ln by lra. rewrite x_sqrt by exact Hv.
  rewrite x_one, x_sub, x_sqrt by lra. unfold square. rewrite !x_mul.
  assert (0 < sqrt (W - 1)) by (apply sqrt_lt_R0; lra). rewrite x_div by lra.
  assert (L : 0 < ln 10) by apply ln10_pos.
  assert (E : sqrt (var / (W - 1)) = sqrt var / sqrt (W - 1)) by (apply sqrt_div_alt; lra).
  destruct par; [| |congruence].
  - do 2 f_equal. rewrite E. field. lra.
  - rewrite x_div by lra. do 2 f_equal. rewrite E. field. lra.
Qed.

(** ** values *)
Lemma est_val_classic x d : 0 < d -> 0 < x -> est_val Classic x d = Fin (ln (1 + d / x) / d / ln 10).
Proof.
  intros Hd Hx. unfold est_val, beta_to_b_value. rewrite (proj2 (rlt_true _ _) Hd).
  assert (0 < d / x) by (apply Rdiv_lt_0_compat; lra).
  rewrite x_one, !x_div, x_add, x_ln by lra. rewrite x_mul. rewrite x_ofZ, x_ln by lra.
  pose proof ln10_pos. rewrite x_div by lra. f_equal. field. lra.
Qed.
Lemma est_val_classic0 x : 0 < x -> est_val Classic x 0 = Fin (1 / x / ln 10).
Proof.
  intros Hx. unfold est_val, beta_to_b_value. rewrite (proj2 (rlt_false 0 0)) by lra.
  rewrite x_one, x_div by lra. rewrite x_ofZ, x_ln by lra. pose proof ln10_pos. rewrite x_div by lra. reflexivity.
Qed.
Lemma est_val_utsu x d : 0 < x + d / 2 -> est_val Utsu x d = Fin (1 / (x + d / 2) / ln 10).
Proof.
  intros Hx. unfold est_val, beta_to_b_value.
  rewrite x_one, x_div by lra. rewrite x_ofZ, x_ln by lra. pose proof ln10_pos. rewrite x_div by lra. reflexivity.
Qed.

Lemma excess_scale s mc l : s <> 0 -> excess (s * mc) (map (fun p => (s * fst p, snd p)) l) = s * excess mc l.
Proof.
  intros Hs. unfold excess.
  replace (wsum (map (fun p => (s * fst p, snd p)) l)) with (wsum l) by (unfold wsum; rewrite map_map; reflexivity).
  rewrite !map_map. cbn [fst snd].
  rewrite (Rsum_map_ext _ (fun p => s * (snd p * (fst p - mc)))) by (intros; ring). rewrite Rsum_map_scal.
  unfold Rdiv. ring.
Qed.
Lemma est_val_scale k s x d : 0 < s -> is_pos k = false -> 0 <= d -> 0 < x ->
  exists b, est_val k x d = Fin b /\ est_val k (s * x) (s * d) = Fin (b / s).
Proof.
  intros Hs Hk Hd Hx. assert (0 < s * x) by nra. pose proof ln10_pos.
  destruct k; try discriminate.
  - destruct (Rle_lt_or_eq_dec 0 d Hd) as [Hd'| <-].
    + exists (ln (1 + d / x) / d / ln 10). split; [apply est_val_classic; assumption|].
      assert (0 < s * d) by nra. rewrite est_val_classic by assumption. f_equal.
      replace (s * d / (s * x)) with (d / x) by (field; lra). field. lra.
    + exists (1 / x / ln 10). split; [apply est_val_classic0; assumption|]. rewrite Rmult_0_r.
      rewrite est_val_classic0 by assumption. f_equal. field. lra.
  - exists (1 / (x + d / 2) / ln 10). split; [apply est_val_utsu; lra|]. assert (0 <= s * d) by nra.
    rewrite est_val_utsu by lra. f_equal. field. nra.
Qed.

(** ** unit weights, constant weights, repetition *)
Definition reweight (f : R -> R) (ev : list event) : list event := map (fun e => (fst e, f (snd e))) ev.
Lemma complete_map (f : R -> R) mc d ev : complete mc d (reweight f ev) = map (fun p => (fst p, f (snd p))) (complete mc d ev).
Proof.
  unfold complete, reweight. induction ev as [|[m w] ev IH]; [reflexivity|]. cbn [map flat_map fst snd]. rewrite IH, map_app.
  f_equal. destruct m; try reflexivity. destruct (rle _ _); reflexivity.
Qed.
Lemma wsum_scale c l : wsum (map (fun p => (fst p, c * snd p)) l) = c * wsum l.
Proof. unfold wsum. rewrite map_map. cbn [snd]. apply Rsum_map_scal. Qed.
Lemma excess_wscale c mc l : c <> 0 -> wsum l <> 0 -> excess mc (map (fun p => (fst p, c * snd p)) l) = excess mc l.
Proof.
  intros Hc Hw. unfold excess. rewrite wsum_scale, map_map. cbn [fst snd].
  rewrite (Rsum_map_ext _ (fun p => c * (snd p * (fst p - mc)))) by (intros; ring). rewrite Rsum_map_scal.
  field. auto.
Qed.
Lemma core_wscale k c mc delta l : c <> 0 -> core k mc delta (map (fun p => (fst p, c * snd p)) l) = core k mc delta l.
Proof.
  intros Hc. unfold core. destruct l as [|p l]; [reflexivity|]. remember (p :: l) as L.
  replace (match map (fun p => (fst p, c * snd p)) L with [] => Ok NaN | _ => est_core k mc delta (map (fun p => (fst p, c * snd p)) L) end)
    with (est_core k mc delta (map (fun p => (fst p, c * snd p)) L)) by (subst L; reflexivity).
  unfold est_core. rewrite wsum_scale. destruct (req (wsum L) 0) eqn:E.
  - apply req_true in E. rewrite E, Rmult_0_r. rewrite (proj2 (req_true 0 0)) by reflexivity. reflexivity.
  - apply req_false in E. rewrite (proj2 (req_false _ _)) by (apply Rmult_integral_contrapositive_currified; assumption).
    rewrite excess_wscale by assumption. reflexivity.
Qed.

(** ** weighted and unweighted input in one *)
Definition argsg (wt : bool) (ev : list event) (mc : R) (delta : dec) : @args xr :=
  if wt then argsw ev mc delta else argsu (map fst ev) mc delta.
Definition effective (wt : bool) (ev : list event) : list event := if wt then ev else unit_events (map fst ev).

Section G.
Variable srt : list xr -> list nat.
Lemma calc_g k w wt ev mc delta o : is_pos k = false -> no_inf (map fst ev) ->
  snd (calculate srt k w (argsg wt ev mc delta) o)
  = let? _ := check (argsg wt ev mc delta) in core k mc delta (complete mc (decR delta) (effective wt ev)).
Proof. intros Hk H. destruct wt; [apply calc_w|apply calc_u]; assumption. Qed.
Lemma final_g k w wt ev mc delta o o' b : is_pos k = false -> no_inf (map fst ev) ->
  calculate srt k w (argsg wt ev mc delta) o = (o', Ok b) ->
  let l := complete mc (decR delta) (effective wt ev) in
  o_mags o' = Some (map (fun p => Fin (fst p)) l) /\
  o_weights o' = (if wt then Some (map (fun p => Fin (snd p)) l) else None) /\ o_b o' = Some b.
Proof. intros Hk H E. destruct wt; [eapply final_w|eapply final_u]; eassumption. Qed.
End G.

Lemma effective_perm wt ev ev' : Permutation ev ev' -> Permutation (effective wt ev) (effective wt ev').
Proof. intros P. destruct wt; [exact P|]. unfold effective, unit_events. apply Permutation_map, Permutation_map, P. Qed.
Lemma check_g_perm wt ev ev' mc delta : no_inf (map fst ev) -> Permutation ev ev' ->
  check (argsg wt ev mc delta) = check (argsg wt ev' mc delta).
Proof. intros H P. destruct wt; [apply check_w_perm; assumption|apply check_u_perm; [exact H|apply Permutation_map, P]]. Qed.

Lemma effective_one wt ev : wt = false -> forall mc d p, In p (complete mc d (effective wt ev)) -> snd p = 1.
Proof. intros -> mc d p. apply complete_units. Qed.

(** the observables that depend on the used sample only *)
Lemma std_sample wt l b o o' l' par :
  (wt = false -> forall p, In p l -> snd p = 1) -> (wt = false -> forall p, In p l' -> snd p = 1) ->
  (l = [] <-> l' = []) -> wsum l = wsum l' -> wvar l = wvar l' ->
  o_mags o = Some (map (fun p => Fin (fst p)) l) -> o_weights o = (if wt then Some (map (fun p => Fin (snd p)) l) else None) ->
  o_mags o' = Some (map (fun p => Fin (fst p)) l') -> o_weights o' = (if wt then Some (map (fun p => Fin (snd p)) l') else None) ->
  shi_bolt_confidence (mags_of o) b (o_weights o) par = shi_bolt_confidence (mags_of o') b (o_weights o') par.
Proof.
  intros H1 H1' Hn Hw Hv E1 E2 E1' E2'. unfold mags_of. rewrite E1, E2, E1', E2'. destruct wt.
  - rewrite !shi_bolt_w, Hw, Hv. reflexivity.
  - destruct l as [|p l]; [destruct (proj1 Hn eq_refl); reflexivity|].
    assert (l' <> []) by (intros F; apply Hn in F; discriminate).
    rewrite !shi_bolt_u by (try assumption; try discriminate; auto). rewrite Hw, Hv. reflexivity.
Qed.

(** ** shift *)
Definition xshift (c : R) (x : xr) : xr := match x with Fin m => Fin (m + c) | _ => x end.
Definition ev_shift (c : R) (ev : list event) : list event := map (fun e => (xshift c (fst e), snd e)) ev.
Lemma complete_shift c mc d ev : complete (mc + c) d (ev_shift c ev) = shift_l c (complete mc d ev).
Proof.
  unfold complete, ev_shift, shift_l. induction ev as [|[m w] ev IH]; [reflexivity|]. cbn [map flat_map fst snd].
  rewrite IH, map_app. f_equal. destruct m as [m| | |]; try reflexivity. cbn [xshift].
  destruct (rle (mc - d / 2) m) eqn:E.
  - apply rle_true in E. rewrite (proj2 (rle_true _ _)) by lra. reflexivity.
  - apply rle_false in E. rewrite (proj2 (rle_false _ _)) by lra. reflexivity.
Qed.
Lemma effective_shift wt c ev : effective wt (ev_shift c ev) = ev_shift c (effective wt ev).
Proof. destruct wt; [reflexivity|]. unfold effective, unit_events, ev_shift. rewrite !map_map. reflexivity. Qed.
Lemma excess_shift_l c mc l : excess (mc + c) (shift_l c l) = excess mc l.
Proof.
  unfold excess. rewrite wsum_shift. unfold shift_l. rewrite map_map. cbn [fst snd]. f_equal.
  apply Rsum_map_ext. intros. ring.
Qed.
Lemma core_shift k c mc delta l : core k (mc + c) delta (shift_l c l) = core k mc delta l.
Proof.
  unfold core. destruct l as [|p l]; [reflexivity|]. remember (p :: l) as L.
  transitivity (est_core k (mc + c) delta (shift_l c L)); [subst L; reflexivity|].
  unfold est_core. rewrite wsum_shift, excess_shift_l. reflexivity.
Qed.
Lemma no_inf_shift c x : no_inf x -> no_inf (map (xshift c) x).
Proof. intros H v Hv. apply in_map_iff in Hv. destruct Hv as (u & <- & Hu). destruct (H u Hu). destruct u; split; cbn; congruence. Qed.
Lemma same_values_shift c x : same_values_up_to c x (map (xshift c) x).
Proof.
  intros v. rewrite !in_fins, in_map_iff. split.
  - intros H. exists (Fin v). auto.
  - intros (u & E & Hu). destruct u as [r| | |]; try discriminate. cbn in E. injection E as E.
    assert (r = v) by lra. subst. exact Hu.
Qed.
Lemma ev_shift_fst c ev : map fst (ev_shift c ev) = map (xshift c) (map fst ev).
Proof. unfold ev_shift. rewrite !map_map. reflexivity. Qed.
Lemma check_g_shift wt c ev mc delta : no_inf (map fst ev) ->
  check (argsg wt (ev_shift c ev) (mc + c) delta) = check (argsg wt ev mc delta).
Proof.
  intros H. assert (U : check (argsu (map fst (ev_shift c ev)) (mc + c) delta) = check (argsu (map fst ev) mc delta)).
  { symmetry. rewrite ev_shift_fst. apply (check_u_values _ _ mc (mc + c) c).
    - exact H.
    - apply no_inf_shift; exact H.
    - apply same_values_shift.
    - destruct (map fst ev); cbn; split; congruence. }
  destruct wt; cbn [argsg]; [|exact U]. rewrite !check_w, U.
  replace (existsb (fun e => rlt (snd e) 0) (ev_shift c ev)) with (existsb (fun e : event => rlt (snd e) 0) ev); [reflexivity|].
  clear. induction ev as [|e ev IH]; [reflexivity|]. cbn [ev_shift map existsb snd]. rewrite IH. reflexivity.
Qed.

(** ** scale *)
Definition xscale (s : R) (x : xr) : xr := match x with Fin m => Fin (s * m) | _ => x end.
Definition ev_scale (s : R) (ev : list event) : list event := map (fun e => (xscale s (fst e), snd e)) ev.
Definition scale_l (s : R) (l : list (R * R)) := map (fun p => (s * fst p, snd p)) l.
Lemma complete_scale s mc d ev : 0 < s -> complete (s * mc) (s * d) (ev_scale s ev) = scale_l s (complete mc d ev).
Proof.
  intros Hs. unfold complete, ev_scale, scale_l. induction ev as [|[m w] ev IH]; [reflexivity|]. cbn [map flat_map fst snd].
  rewrite IH, map_app. f_equal. destruct m as [m| | |]; try reflexivity. cbn [xscale].
  destruct (rle (mc - d / 2) m) eqn:E.
  - apply rle_true in E. rewrite (proj2 (rle_true _ _)) by nra. reflexivity.
  - apply rle_false in E. rewrite (proj2 (rle_false _ _)) by nra. reflexivity.
Qed.
Lemma effective_scale wt c ev : effective wt (ev_scale c ev) = ev_scale c (effective wt ev).
Proof. destruct wt; [reflexivity|]. unfold effective, unit_events, ev_scale. rewrite !map_map. reflexivity. Qed.
Lemma ev_scale_fst c ev : map fst (ev_scale c ev) = map (xscale c) (map fst ev).
Proof. unfold ev_scale. rewrite !map_map. reflexivity. Qed.
Lemma no_inf_scale c x : no_inf x -> no_inf (map (xscale c) x).
Proof. intros H v Hv. apply in_map_iff in Hv. destruct Hv as (u & <- & Hu). destruct (H u Hu). destruct u; split; cbn; congruence. Qed.
Lemma wsum_scale_l s l : wsum (scale_l s l) = wsum l.
Proof. unfold wsum, scale_l. rewrite map_map. reflexivity. Qed.
Lemma wmean_scale_l s l : wmean (scale_l s l) = s * wmean l.
Proof.
  unfold wmean. rewrite wsum_scale_l. unfold scale_l. rewrite map_map. cbn [fst snd].
  rewrite (Rsum_map_ext _ (fun p => s * (snd p * fst p))) by (intros; ring). rewrite Rsum_map_scal. unfold Rdiv. ring.
Qed.
Lemma wvar_scale_l s l : wvar (scale_l s l) = s * s * wvar l.
Proof.
  unfold wvar. rewrite wsum_scale_l, wmean_scale_l. unfold scale_l. rewrite map_map. cbn [fst snd].
  rewrite (Rsum_map_ext _ (fun p => (s * s) * (snd p * Rsqr (fst p - wmean l)))) by (intros; unfold Rsqr; ring).
  rewrite Rsum_map_scal. unfold Rdiv. ring.
Qed.

(** ** events that do not count *)
Definition below (mc d : R) (e : event) : Prop := fst e = NaN \/ exists m, fst e = Fin m /\ m < mc - d / 2.
Lemma complete_app mc d e1 e2 : complete mc d (e1 ++ e2) = complete mc d e1 ++ complete mc d e2.
Proof. unfold complete. apply flat_map_app. Qed.
Lemma complete_below mc d ev : (forall e, In e ev -> below mc d e) -> complete mc d ev = [].
Proof.
  induction ev as [|e ev IH]; intros H; [reflexivity|]. unfold complete in *. cbn [flat_map].
  rewrite IH by (intros; apply H; right; assumption). rewrite app_nil_r.
  destruct (H e (or_introl eq_refl)) as [->|(m & -> & L)]; [reflexivity|]. rewrite (proj2 (rle_false _ _) L). reflexivity.
Qed.
Lemma effective_app wt e1 e2 : effective wt (e1 ++ e2) = effective wt e1 ++ effective wt e2.
Proof. destruct wt; [reflexivity|]. unfold effective, unit_events. rewrite !map_app. reflexivity. Qed.
Lemma effective_below wt mc d ev : (forall e, In e ev -> below mc d e) -> forall e, In e (effective wt ev) -> below mc d e.
Proof.
  intros H. destruct wt; [exact H|]. unfold effective, unit_events. intros e He. apply in_map_iff in He.
  destruct He as (m & <- & Hm). apply in_map_iff in Hm. destruct Hm as (e' & <- & He'). apply (H e' He').
Qed.
