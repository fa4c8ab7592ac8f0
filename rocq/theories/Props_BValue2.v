(** * Property theorems about the b-value estimators, part 2 (C16, C17, C23-C25, C27, C29) *)
From Coq Require Import Reals Lra List Permutation Lia Bool ZArith Sorted.
From Verif Require Import Base Num XR RList SortLib Binning_model Spec_Binning Binning_proofs BinTest_proofs
  BValue_model BValue_run Spec_BValue BValue_real Likelihood BValue_proofs Props_BValue.
Import ListNotations.
Open Scope R_scope.

(** ** C16: a reused estimator *)
(** one object, any earlier calls (successful or not, with any options) *)
Fixpoint history {T} {N : Num T} (srt : list T -> list nat) (k : kind) (h : list (bool * @args T)) (o : @obj T) : @obj T :=
  match h with [] => o | (w, a) :: t => history srt k t (fst (calculate srt k w a o)) end.

Lemma ogather_none {T} (ws : option (list T)) i r : ogather ws i = Ok r -> (r = None <-> ws = None).
Proof.
  unfold ogather. destruct ws as [l|]; [|intros E; injection E as <-; tauto].
  destruct (gather l i); cbn [rmap]; intros E; [|discriminate]. injection E as <-. split; discriminate.
Qed.
Lemma ordered_none {T} (srt : list T -> list nat) ms ws ix ts ms1 ws1 ix1 ts1 :
  ordered srt ms ws ix ts = Ok (ms1, ws1, ix1, ts1) -> (ws1 = None <-> ws = None).
Proof.
  unfold ordered. destruct ts as [t|]; [|intros E; injection E as <- <- <- <-; tauto].
  destruct (gather ms _); [|discriminate]. cbn [rbind].
  destruct (ogather ws (srt t)) as [w'|] eqn:G; [|discriminate]. cbn [rbind].
  destruct (gather t _); [|discriminate]. cbn [rbind]. destruct (gather ix _); [|discriminate]. cbn [rbind].
  intros E. injection E as <- <- <- <-. exact (ogather_none _ _ _ G).
Qed.
Lemma run_weights_none {T} {N : Num T} srt k (a : @args T) u : run srt k a = Ok u -> (u_weights u = None <-> u_oweights u = None).
Proof.
  unfold run. destruct (is_pos k && _); [discriminate|]. cbn [rbind]. destruct (check a); [|discriminate]. cbn [rbind].
  destruct (f_times k a) as [ts|]; [|discriminate]. cbn [rbind].
  destruct (f_mags a) as [|m ms]; [intros E; injection E as <-; cbn; tauto|].
  destruct k; cbn [run_est].
  - destruct (mle_estimator _ _ _ _); [|discriminate]. intros E; injection E as <-; cbn; tauto.
  - destruct (utsu_estimator _ _ _ _); [|discriminate]. intros E; injection E as <-; cbn; tauto.
  - unfold run_pos. destruct (ordered _ _ _ _ _) as [[[[ms1 ws1] ix1] ts1]|] eqn:O; [|discriminate]. cbn [rbind].
    apply ordered_none in O.
    destruct (if nltb _ _ then _ else _); [|discriminate]. cbn [rbind].
    destruct (mle_estimator _ _ _ _); [|discriminate]. intros E; injection E as <-. cbn [u_weights u_oweights].
    rewrite <- O. destruct ws1; cbn; split; congruence.
  - unfold run_more. destruct (ordered _ _ _ _ _) as [[[[ms1 ws1] ix1] ts1]|] eqn:O; [|discriminate]. cbn [rbind].
    destruct (gather ms1 _); [|discriminate]. cbn [rbind]. destruct (bin_to_precision _ _); [|discriminate]. cbn [rbind].
    destruct (gather ix1 _); [|discriminate]. cbn [rbind].
    destruct (ogather ws1 _) eqn:G; [|discriminate]. cbn [rbind].
    destruct (ogather ts1 _); [|discriminate]. cbn [rbind].
    destruct (mle_estimator _ _ _ _); [|discriminate]. intros E; injection E as <-. cbn [u_weights u_oweights].
    exact (ogather_none _ _ _ G).
Qed.
Lemma calc_snd_any {T} {N : Num T} srt k w w' (a : @args T) o o' :
  snd (calculate srt k w a o) = snd (calculate srt k w' a o').
Proof.
  pose proof (calculate_run srt k w a o) as H. pose proof (calculate_run srt k w' a o') as H'.
  destruct (run srt k a) as [u|e]; destruct H as (o1 & -> & _); destruct H' as (o2 & -> & _); reflexivity.
Qed.
Lemma mapM_ext {A B} (f g : A -> res B) l : (forall x, f x = g x) -> mapM f l = mapM g l.
Proof. intros H. induction l as [|x l IH]; [reflexivity|]. cbn [mapM]. rewrite H, IH. reflexivity. Qed.

Lemma calculate_any_objects : forall T (N : Num T) srt k (oa ob : @obj T) w w' a,
  let '(o1, r1) := calculate srt k w a oa in
  let '(o2, r2) := calculate srt k w' a ob in
  r1 = r2 /\
  (forall b, r1 = Ok b ->
     o_mags o1 = o_mags o2 /\ o_weights o1 = o_weights o2 /\ o_idx o1 = o_idx o2 /\
     o_mc o1 = o_mc o2 /\ o_delta o1 = o_delta o2 /\
     b_value o1 = b_value o2 /\ est_beta o1 = est_beta o2 /\ est_n o1 = est_n o2 /\
     est_std o1 = est_std o2 /\ est_std_beta o1 = est_std_beta o2 /\
     (k = BPositive \/ k = BMorePositive ->
        o_times o1 = o_times o2 /\ o_dmc o1 = o_dmc o2 /\
        (forall wb wb' draws, more_positive_std srt wb draws o1 = more_positive_std srt wb' draws o2))).
Proof.
  intros T N srt k oa ob w w' a. destruct (calculate srt k w a oa) as [o1 r1] eqn:C1. destruct (calculate srt k w' a ob) as [o2 r2] eqn:C2.
  pose proof (calc_snd_any srt k w w' a oa ob) as S. rewrite C1, C2 in S. cbn [snd] in S. subst r2.
  split; [reflexivity|]. intros b ->. apply calculate_inv in C1. apply calculate_inv in C2.
  destruct C1 as (u & R & Eb & F). destruct C2 as (u2 & R2 & Eb2 & F2). rewrite R in R2. injection R2 as <-.
  pose proof (run_weights_none srt k a u R) as Hn.
  destruct F as (F1 & F2' & F3 & F4 & F5 & F6 & F7 & F8 & F9 & F10).
  destruct F2 as (G1 & G2 & G3 & G4 & G5 & G6 & G7 & G8 & G9 & G10).
  assert (Eb' : b_value o1 = b_value o2) by (unfold b_value; rewrite F6, G6; reflexivity).
  assert (Em : mags_of o1 = mags_of o2) by (unfold mags_of; rewrite F1, G1; reflexivity).
  unfold est_n, est_std, est_std_beta, est_beta. rewrite <- Eb', <- Em, F4, G4.
  repeat (split; [congruence|]).
  intros Hk. assert (Hp : is_pos k = true) by (destruct Hk as [->| ->]; reflexivity). rewrite Hp in F9, F10, G9, G10.
  split; [congruence|]. split; [congruence|]. intros wb wb' draws. unfold more_positive_std. rewrite <- Eb'.
  destruct (b_value o1); [|reflexivity]. cbn [rbind]. rewrite F2', F3, G2, G3.
  unfold bootstrap_std. rewrite (mapM_ext (bootstrap_func srt wb o1 (a_mc a) (a_delta a)) (bootstrap_func srt wb' o2 (a_mc a) (a_delta a))); [reflexivity|].
  intros x. unfold bootstrap_func. rewrite F7, G7, F4, G4, F8, G8, F10, G10.
  destruct (gather (u_omags u) _); [|reflexivity]. cbn [rbind].
  destruct (u_weights u) as [uw|] eqn:Eu.
  - destruct (u_oweights u) as [ow|] eqn:Eo; [|discriminate (proj2 Hn eq_refl)].
    destruct (gather ow _); [|reflexivity]. cbn [rmap rbind]. apply calc_snd_any.
  - cbn [rbind]. apply calc_snd_any.
Qed.
Theorem C16_reuse_is_history_independent : forall T (N : Num T) srt k (h1 h2 : list (bool * @args T)) w w' a,
  let '(o1, r1) := calculate srt k w a (history srt k h1 new_obj) in
  let '(o2, r2) := calculate srt k w' a (history srt k h2 new_obj) in
  r1 = r2 /\
  (forall b, r1 = Ok b ->
     o_mags o1 = o_mags o2 /\ o_weights o1 = o_weights o2 /\ o_idx o1 = o_idx o2 /\
     o_mc o1 = o_mc o2 /\ o_delta o1 = o_delta o2 /\
     b_value o1 = b_value o2 /\ est_beta o1 = est_beta o2 /\ est_n o1 = est_n o2 /\
     est_std o1 = est_std o2 /\ est_std_beta o1 = est_std_beta o2 /\
     (k = BPositive \/ k = BMorePositive ->
        o_times o1 = o_times o2 /\ o_dmc o1 = o_dmc o2 /\
        (forall wb wb' draws, more_positive_std srt wb draws o1 = more_positive_std srt wb' draws o2))).
Proof. intros. apply calculate_any_objects. Qed.
Print Assumptions C16_reuse_is_history_independent.
(** a non-trivial history: a weighted call, then a failing one, before the call of interest *)
Example C16_example : exists o' b, calculate ex_srt Classic true (argsg false ex_ev 1 (mkdec 1 0))
    (history ex_srt Classic [(true, argsg true ex_ev 1 (mkdec 1 0)); (false, mkargs [Fin 1] (Fin 1) (mkdec 1 0) (Some []) None None)] new_obj) = (o', Ok b).
Proof.
  pose proof (calc_g ex_srt Classic true false ex_ev 1 (mkdec 1 0)
    (history ex_srt Classic [(true, argsg true ex_ev 1 (mkdec 1 0)); (false, mkargs [Fin 1] (Fin 1) (mkdec 1 0) (Some []) None None)] new_obj)
    eq_refl ex_no_inf) as H.
  destruct (calculate _ _ _ _ _) as [o' r]. cbn [snd] in H. rewrite ex_check in H. cbn [rbind effective] in H.
  assert (L : complete 1 (decR (mkdec 1 0)) (unit_events (map fst ex_ev)) = [(1, 1); (2, 1)]).
  { rewrite decR1. unfold complete, unit_events, ex_ev. cbn [map flat_map fst snd].
    rewrite !(proj2 (rle_true _ _)) by lra. rewrite (proj2 (rle_false _ _)) by lra. reflexivity. }
  rewrite L in H. unfold core, est_core in H. rewrite (proj2 (req_false _ _)) in H by (unfold wsum; cbn; lra).
  eexists _, _. rewrite H. reflexivity.
Qed.

(** ** C17: a failing call *)
Theorem C17_failed_call_keeps_result : forall T (N : Num T) srt k w (a : @args T) o o' e,
  calculate srt k w a o = (o', Err e) -> b_value o' = b_value o.
Proof.
  intros T N srt k w a o o' e C. apply calculate_inv in C. destruct C as [_ C]. unfold b_value. rewrite C. reflexivity.
Qed.
Print Assumptions C17_failed_call_keeps_result.
(** an estimator none of whose calls succeeded never shows a result *)
Theorem C17_never_successful : forall T (N : Num T) srt k (h : list (bool * @args T)),
  (forall w a o b, In (w, a) h -> snd (calculate srt k w a o) <> Ok b) ->
  let o := history srt k h new_obj in
  b_value o = Err AttributeError /\ est_beta o = Err AttributeError /\ est_n o = Err AttributeError /\
  est_std o = Err AttributeError /\ est_std_beta o = Err AttributeError.
Proof.
  intros T N srt k h Hf o. assert (B : b_value o = Err AttributeError).
  { unfold o. assert (G : forall h (oo : @obj T), b_value oo = Err AttributeError ->
      (forall w a o b, In (w, a) h -> snd (calculate srt k w a o) <> Ok b) -> b_value (history srt k h oo) = Err AttributeError).
    { clear. induction h as [|[w a] h IH]; intros oo Hb Hf; [exact Hb|]. cbn [history]. apply IH.
      - destruct (calculate srt k w a oo) as [o1 [b|e]] eqn:C.
        + exfalso. apply (Hf w a oo b (or_introl eq_refl)). rewrite C. reflexivity.
        + cbn [fst]. rewrite (C17_failed_call_keeps_result T N srt k w a oo o1 e C). exact Hb.
      - intros w0 a0 o0 b0 Hin. apply Hf. right. exact Hin. }
    apply G; [reflexivity|exact Hf]. }
  unfold est_beta, est_n, est_std, est_std_beta, est_beta. rewrite B. repeat split; reflexivity.
Qed.
Print Assumptions C17_never_successful.
(** the full property is false: after a failing second call the estimator shows the b-value
    of the first sample together with the magnitudes of the second *)
Theorem C76_stale_result_refuted : exists (srt : list xr -> list nat) a1 a2 o1 o2 b e,
  calculate srt Classic true a1 new_obj = (o1, Ok b) /\
  calculate srt Classic true a2 o1 = (o2, Err e) /\
  b_value o2 = Ok b /\ o_mags o2 = Some (a_mags a2) /\
  forall srt' w o, snd (calculate srt' Classic w (mkargs (a_mags a2) (a_mc a2) (a_delta a2) None None None) o) <> Ok b.
Proof.
  set (a1 := argsg false (unit_events [Fin 1; Fin 2]) 1 (mkdec 1 0)).
  set (a2 := mkargs [Fin 1; Fin 3] (Fin 1) (mkdec 1 0) (Some []) None None).
  assert (NI1 : no_inf (map fst (unit_events [Fin 1; Fin 2]))) by (intros v [<-|[<-|[]]]; split; discriminate).
  assert (NI2 : no_inf (map fst (unit_events [Fin 1; Fin 3]))) by (intros v [<-|[<-|[]]]; split; discriminate).
  assert (K1 : check a1 = Ok tt).
  { unfold a1, argsg. apply (check_grid [1; 2] 1 (mkdec 1 0) 0); [rewrite decR1; unfold epsR; simpl; lra|].
    rewrite decR1. intros m [<-|[<-|[]]]; [exists 1%Z|exists 2%Z]; simpl; lra. }
  assert (K2 : check (argsu [Fin 1; Fin 3] 1 (mkdec 1 0)) = Ok tt).
  { apply (check_grid [1; 3] 1 (mkdec 1 0) 0); [rewrite decR1; unfold epsR; simpl; lra|].
    rewrite decR1. intros m [<-|[<-|[]]]; [exists 1%Z|exists 3%Z]; simpl; lra. }
  assert (L1 : complete 1 (decR (mkdec 1 0)) (effective false (unit_events [Fin 1; Fin 2])) = [(1, 1); (2, 1)]).
  { rewrite decR1. unfold complete, effective, unit_events. cbn [map flat_map fst snd].
    rewrite !(proj2 (rle_true _ _)) by lra. reflexivity. }
  assert (L2 : complete 1 (decR (mkdec 1 0)) (effective false (unit_events [Fin 1; Fin 3])) = [(1, 1); (3, 1)]).
  { rewrite decR1. unfold complete, effective, unit_events. cbn [map flat_map fst snd].
    rewrite !(proj2 (rle_true _ _)) by lra. reflexivity. }
  assert (X1 : excess 1 [(1, 1); (2, 1)] = 1 / 2) by (unfold excess, wsum, Rsum; cbn; lra).
  assert (X2 : excess 1 [(1, 1); (3, 1)] = 1) by (unfold excess, wsum, Rsum; cbn; lra).
  assert (V1 : core Classic 1 (mkdec 1 0) [(1, 1); (2, 1)] = Ok (Fin (ln (1 + 1 / (1/2)) / 1 / ln 10))).
  { unfold core, est_core. rewrite (proj2 (req_false _ _)) by (unfold wsum; cbn; lra). rewrite X1, decR1, est_val_classic by lra. reflexivity. }
  assert (V2 : core Classic 1 (mkdec 1 0) [(1, 1); (3, 1)] = Ok (Fin (ln (1 + 1 / 1) / 1 / ln 10))).
  { unfold core, est_core. rewrite (proj2 (req_false _ _)) by (unfold wsum; cbn; lra). rewrite X2, decR1, est_val_classic by lra. reflexivity. }
  exists ex_srt, a1, a2.
  pose proof (calc_g ex_srt Classic true false (unit_events [Fin 1; Fin 2]) 1 (mkdec 1 0) new_obj eq_refl NI1) as E1.
  fold a1 in E1. rewrite K1 in E1. cbn [rbind] in E1. rewrite L1, V1 in E1.
  destruct (calculate ex_srt Classic true a1 new_obj) as [o1 r1] eqn:C1. cbn [snd] in E1. subst r1.
  pose proof (calculate_run ex_srt Classic true a2 o1) as E2.
  assert (Hc : check a2 = Err IndexError).
  { rewrite check_u in K2. unfold check, a2. cbn [a_mags a_weights a_delta].
    rewrite x_lit. change (IZR 1 / IZR (10 ^ Z.of_nat 15)) with tol15.
    destruct (binning_test [Fin 1; Fin 3] _ _ _) as [[]|]; [reflexivity|discriminate|discriminate]. }
  assert (R2 : run ex_srt Classic a2 = Err IndexError).
  { unfold run. cbn [is_pos andb rbind]. rewrite Hc. reflexivity. }
  rewrite R2 in E2. destruct E2 as (o2 & C2 & B2).
  exists o1, o2, (Fin (ln (1 + 1 / (1/2)) / 1 / ln 10)), IndexError.
  split; [reflexivity|]. split; [exact C2|].
  assert (Hb : b_value o1 = Ok (Fin (ln (1 + 1 / (1/2)) / 1 / ln 10))).
  { apply calculate_inv in C1. destruct C1 as (u & _ & -> & F). destruct F as (_ & _ & _ & _ & _ & F & _). unfold b_value. rewrite F. reflexivity. }
  split; [unfold b_value in *; rewrite B2; exact Hb|]. split.
  - (* the magnitudes are stored before the checks *)
    assert (M : o_mags (fst (calculate ex_srt Classic true a2 o1)) = Some (a_mags a2)).
    { unfold calculate, base_calculate.
      rewrite (bind_ok _ _ o1 (set_mags (a_mags a2) o1) tt eq_refl).
      rewrite (bind_ok _ _ _ (set_mc (a_mc a2) (set_mags (a_mags a2) o1)) tt eq_refl).
      rewrite (bind_ok _ _ _ (set_delta (a_delta a2) (set_mc (a_mc a2) (set_mags (a_mags a2) o1))) tt eq_refl).
      rewrite (bind_ok _ _ _ (set_weights (a_weights a2) (set_delta (a_delta a2) (set_mc (a_mc a2) (set_mags (a_mags a2) o1)))) tt eq_refl).
      set (oo := set_weights _ _).
      destruct (sanity_run true a2 oo eq_refl eq_refl) as (o3 & S & Q).
      rewrite Hc in S. rewrite (bind_err _ _ _ _ _ S). cbn [fst]. destruct Q as [Q _]. rewrite Q. reflexivity. }
    rewrite C2 in M. exact M.
  - intros srt' w o.
    pose proof (calc_g srt' Classic w false (unit_events [Fin 1; Fin 3]) 1 (mkdec 1 0) o eq_refl NI2) as E3.
    unfold argsg in E3. change (map fst (unit_events [Fin 1; Fin 3])) with [Fin 1; Fin 3] in E3.
    unfold a2; cbn [a_mags a_mc a_delta]. unfold argsu in E3, K2. rewrite E3, K2. cbn [rbind].
    change (unit_events [Fin 1; Fin 3]) with (unit_events [Fin 1; Fin 3]). rewrite L2, V2.
    intros F. injection F as F. pose proof ln10_pos.
    assert (ln (1 + 1 / 1) < ln (1 + 1 / (1 / 2))) by (apply ln_increasing; lra).
    assert (ln (1 + 1 / 1) / 1 / ln 10 < ln (1 + 1 / (1 / 2)) / 1 / ln 10); [|lra].
    unfold Rdiv at 1 3. apply Rmult_lt_compat_r; [apply Rinv_0_lt_compat; assumption|]. lra.
Qed.
Print Assumptions C76_stale_result_refuted.

(** ** C23: input validation, for every arithmetic and every estimator class *)
Definition binned_ok {T} {N : Num T} (a : @args T) : Prop :=
  a_mags a = [] \/ binning_test (a_mags a) (a_delta a) (lit 1 15) false = Ok true.
Lemma check_binned {T} {N : Num T} (a : @args T) : binned_ok a -> check a =
  match a_weights a with
  | None => Ok tt
  | Some ws => if negb (length (a_mags a) =? length ws)%nat then Err IndexError
               else if existsb (fun v => nltb v zero) ws then Err ValueError else Ok tt
  end.
Proof.
  unfold binned_ok, check. intros H. destruct (a_mags a) as [|m ms] eqn:E; [reflexivity|].
  destruct H as [H|H]; [discriminate|]. rewrite H. reflexivity.
Qed.
Definition dmc_ok {T} {N : Num T} (k : kind) (a : @args T) : Prop :=
  k = BPositive \/ k = BMorePositive ->
  nltb (match a_dmc a with Some d => d | None => dec_val (a_delta a) end) zero = false.
Lemma run_dmc {T} {N : Num T} srt k (a : @args T) : dmc_ok k a ->
  run srt k a = let? _ := check a in let? ts := f_times k a in
    match f_mags a with [] => Ok (mkout [] (f_weights a) (f_idx a) ts [] (f_weights a) nnan)
    | _ => run_est srt k a (f_mags a) (f_weights a) (f_idx a) ts end.
Proof.
  intros H. unfold run. replace (is_pos k && nltb (the_dmc a) zero) with false.
  - cbn [rbind]. destruct (check a); [|reflexivity]. cbn [rbind]. destruct (f_times k a); [|reflexivity]. cbn [rbind].
    destruct (f_mags a); reflexivity.
  - destruct k; cbn [is_pos andb]; try reflexivity; symmetry; apply H; [left|right]; reflexivity.
Qed.
Theorem C23_wrong_length : forall T (N : Num T) srt k w (a : @args T) ws o,
  binned_ok a -> dmc_ok k a -> a_weights a = Some ws -> length ws <> length (a_mags a) ->
  snd (calculate srt k w a o) = Err IndexError.
Proof.
  intros T N srt k w a ws o Hb Hd Ew Hl. pose proof (calculate_run srt k w a o) as C.
  rewrite run_dmc, check_binned, Ew in C by assumption.
  destruct (Nat.eqb_spec (length (a_mags a)) (length ws)); [congruence|]. cbn in C. destruct C as (o' & -> & _). reflexivity.
Qed.
Theorem C23_negative_weight : forall T (N : Num T) srt k w (a : @args T) ws v o,
  binned_ok a -> dmc_ok k a -> a_weights a = Some ws -> length ws = length (a_mags a) ->
  In v ws -> nltb v zero = true ->
  snd (calculate srt k w a o) = Err ValueError.
Proof.
  intros T N srt k w a ws v o Hb Hd Ew Hl Hv Hn. pose proof (calculate_run srt k w a o) as C.
  rewrite run_dmc, check_binned, Ew in C by assumption. rewrite <- Hl, Nat.eqb_refl in C.
  replace (existsb (fun x => nltb x zero) ws) with true in C by (symmetry; apply existsb_exists; eauto).
  cbn in C. destruct C as (o' & -> & _). reflexivity.
Qed.
(** magnitudes that are not binned at delta_m never give an estimate *)
Theorem C23_not_binned : forall T (N : Num T) srt k w (a : @args T) o,
  a_mags a <> [] -> binning_test (a_mags a) (a_delta a) (lit 1 15) false = Ok false -> dmc_ok k a ->
  snd (calculate srt k w a o) = Err ValueError.
Proof.
  intros T N srt k w a o Hm Hb Hd. pose proof (calculate_run srt k w a o) as C. rewrite run_dmc in C by assumption.
  assert (Hc : check a = Err ValueError) by (unfold check; destruct (a_mags a); [congruence|]; rewrite Hb; reflexivity).
  rewrite Hc in C. cbn in C. destruct C as (o' & -> & _). reflexivity.
Qed.
(** whatever else is wrong with the input, weights of the wrong length or with a negative
    entry are never accepted *)
Theorem C23_bad_weights_never_accepted : forall T (N : Num T) srt k w (a : @args T) ws o b,
  a_weights a = Some ws -> length ws <> length (a_mags a) \/ (exists v, In v ws /\ nltb v zero = true) ->
  snd (calculate srt k w a o) <> Ok b.
Proof.
  intros T N srt k w a ws o b Ew H F. destruct (calculate srt k w a o) as [o' r] eqn:C. cbn [snd] in F. subst r.
  apply calculate_inv in C. destruct C as (u & R & _). apply run_cases in R. destruct R as [Hc _].
  unfold check in Hc. destruct (match a_mags a with [] => Ok tt | _ => _ end) as [[]|]; [|discriminate]. cbn [rbind] in Hc.
  rewrite Ew in Hc. destruct (Nat.eqb_spec (length (a_mags a)) (length ws)) as [L|L]; cbn [negb] in Hc; [|discriminate].
  destruct H as [H|(v & Hv & Hn)]; [congruence|].
  replace (existsb (fun x => nltb x zero) ws) with true in Hc by (symmetry; apply existsb_exists; eauto). discriminate.
Qed.
Theorem C23_negative_dmc : forall T (N : Num T) srt k w (a : @args T) d o, k = BPositive \/ k = BMorePositive ->
  a_dmc a = Some d -> nltb d zero = true -> snd (calculate srt k w a o) = Err ValueError.
Proof.
  intros T N srt k w a d o Hk Ed Hn. assert (Hp : is_pos k = true) by (destruct Hk as [->| ->]; reflexivity).
  pose proof (calculate_run srt k w a o) as C. unfold run in C.
  replace (is_pos k && nltb (the_dmc a) zero) with true in C by (unfold the_dmc; rewrite Hp, Ed, Hn; reflexivity).
  cbn in C. destruct C as (o' & -> & _). reflexivity.
Qed.
Theorem C23_read_before_calculate : forall T (N : Num T) srt w draws,
  b_value (@new_obj T) = Err AttributeError /\ est_beta (@new_obj T) = Err AttributeError /\
  est_n (@new_obj T) = Err AttributeError /\ est_std (@new_obj T) = Err AttributeError /\
  est_std_beta (@new_obj T) = Err AttributeError /\ more_positive_std srt w draws (@new_obj T) = Err AttributeError.
Proof. intros. repeat split; reflexivity. Qed.
Print Assumptions C23_wrong_length.
Print Assumptions C23_negative_weight.
Print Assumptions C23_not_binned.
Print Assumptions C23_bad_weights_never_accepted.
Print Assumptions C23_negative_dmc.
Print Assumptions C23_read_before_calculate.
Example C23_example : binned_ok (argsg true ex_ev 1 (mkdec 1 0)).
Proof.
  right. pose proof (ex_check false) as C. unfold argsg in C. rewrite check_u in C. cbn [argsg argsw a_mags a_delta].
  rewrite x_lit. change (IZR 1 / IZR (10 ^ Z.of_nat 15)) with tol15.
  destruct (map fst ex_ev) eqn:Em; [discriminate|]. destruct (binning_test _ _ _ _) as [[]|]; [reflexivity|discriminate|discriminate].
Qed.

(** ** C24: Shi-Bolt uncertainty *)
Definition mean (ms : list R) : R := Rsum ms / INR (length ms).
Definition ssq (ms : list R) : R := Rsum (map (fun m => Rsqr (m - mean ms)) ms).
Definition units (ms : list R) : list (R * R) := map (fun m => (m, 1)) ms.
Lemma units_one ms p : In p (units ms) -> snd p = 1.
Proof. unfold units. intros H. apply in_map_iff in H. destruct H as (m & <- & _). reflexivity. Qed.
Lemma units_wsum ms : wsum (units ms) = INR (length ms).
Proof. rewrite wsum_units by apply units_one. unfold units. rewrite map_length. reflexivity. Qed.
Lemma units_wmean ms : wmean (units ms) = mean ms.
Proof.
  unfold wmean, mean. rewrite units_wsum. f_equal. unfold units. rewrite map_map. cbn.
  rewrite (Rsum_map_ext _ (fun m => m)) by (intros; ring). rewrite map_id. reflexivity.
Qed.
Lemma units_wvar ms : wvar (units ms) = ssq ms / INR (length ms).
Proof.
  unfold wvar, ssq. rewrite units_wsum, units_wmean. f_equal. unfold units. rewrite map_map. cbn.
  apply Rsum_map_ext. intros. ring.
Qed.
Lemma units_mags ms : map Fin ms = map (fun p : R * R => Fin (fst p)) (units ms).
Proof. unfold units. rewrite map_map. reflexivity. Qed.
Lemma ssq_nonneg ms : 0 <= ssq ms.
Proof. apply Rsum_nonneg. intros x Hx. apply in_map_iff in Hx. destruct Hx as (m & <- & _). apply Rle_0_sqr. Qed.
Lemma len2 {A} (ms : list A) : (2 <= length ms)%nat -> 2 <= INR (length ms).
Proof. intros H. apply le_INR in H. simpl in H. lra. Qed.

Theorem C24_formula : forall ms b, (2 <= length ms)%nat ->
  let n := INR (length ms) in
  shi_bolt_confidence (map Fin ms) (Fin b) None PB = Ok (Fin (ln 10 * b ^ 2 * sqrt (ssq ms / (n * (n - 1))))) /\
  shi_bolt_confidence (map Fin ms) (Fin b) None PBeta = Ok (Fin (b ^ 2 * sqrt (ssq ms / (n * (n - 1))))).
Proof.
  intros ms b Hn n. pose proof (len2 ms Hn) as H2. fold n in H2.
  assert (Hne : units ms <> []) by (destruct ms; [cbn in Hn; lia|discriminate]).
  assert (V : 0 <= wvar (units ms)).
  { rewrite units_wvar. fold n. apply Rmult_le_pos; [apply ssq_nonneg|]. left. apply Rinv_0_lt_compat. lra. }
  rewrite units_mags, !shi_bolt_u by (try apply units_one; assumption).
  rewrite units_wsum. fold n. rewrite !sb_fin by (try assumption; try discriminate; lra).
  rewrite units_wvar. fold n. replace (ssq ms / n / (n - 1)) with (ssq ms / (n * (n - 1))) by (field; lra).
  split; do 2 f_equal; ring.
Qed.
Print Assumptions C24_formula.
(** for weights: [l] is the list of (magnitude, weight) *)
Theorem C24_formula_weighted : forall (l : list (R * R)) b, (forall p, In p l -> 0 <= snd p) -> 1 < wsum l ->
  let W := wsum l in
  shi_bolt_confidence (map (fun p => Fin (fst p)) l) (Fin b) (Some (map (fun p => Fin (snd p)) l)) PB =
  Ok (Fin (ln 10 * b ^ 2 * sqrt (Rsum (map (fun p => snd p * Rsqr (fst p - wmean l)) l) / (W * (W - 1))))).
Proof.
  intros l b Hp HW W. rewrite shi_bolt_w. rewrite (proj2 (req_false _ _)) by lra.
  assert (V0 : 0 <= wvar l) by (apply wvar_nonneg; [lra|assumption]). rewrite sb_fin by (try assumption; discriminate).
  unfold wvar. fold W. do 2 f_equal. replace (Rsum (map (fun p => snd p * Rsqr (fst p - wmean l)) l) / W / (W - 1))
    with (Rsum (map (fun p => snd p * Rsqr (fst p - wmean l)) l) / (W * (W - 1))); [ring|].
  unfold W in *. field. lra.
Qed.
Print Assumptions C24_formula_weighted.
Theorem C24_nonneg_zero_iff_all_equal : forall ms b, (2 <= length ms)%nat ->
  exists s, shi_bolt_confidence (map Fin ms) (Fin b) None PB = Ok (Fin s) /\ 0 <= s /\
    (b <> 0 -> (s = 0 <-> forall x y, In x ms -> In y ms -> x = y)).
Proof.
  intros ms b Hn. destruct (C24_formula ms b Hn) as [E _]. cbv zeta in E. pose proof (len2 ms Hn) as H2.
  set (n := INR (length ms)) in *. eexists. split; [exact E|]. pose proof ln10_pos as HL. pose proof (ssq_nonneg ms) as Q.
  assert (D : 0 < n * (n - 1)) by nra. assert (B : 0 <= b ^ 2) by nra.
  split; [apply Rmult_le_pos; [nra|apply sqrt_pos]|]. intros Hb. assert (B' : 0 < b ^ 2) by (assert (0 < b * b) by nra; nra).
  assert (ZS : ssq ms = 0 <-> forall x y, In x ms -> In y ms -> x = y).
  { split.
    - intros Z x y Hx Hy.
      assert (A : forall v, In v ms -> v = mean ms).
      { intros v Hv. assert (Rsqr (v - mean ms) = 0).
        { apply (Rsum_zero_all (map (fun m => Rsqr (m - mean ms)) ms)); [|exact Z|apply in_map_iff; eauto].
          intros u Hu. apply in_map_iff in Hu. destruct Hu as (m & <- & _). apply Rle_0_sqr. }
        apply Rsqr_eq_0 in H. lra. }
      rewrite (A x Hx), (A y Hy). reflexivity.
    - intros H. destruct ms as [|m0 ms']; [reflexivity|].
      assert (M : mean (m0 :: ms') = m0).
      { unfold mean. rewrite <- (map_id (m0 :: ms')) at 1. rewrite (Rsum_map_ext (fun m => m) (fun _ => m0)).
        - rewrite Rsum_map_const. fold n. field. lra.
        - intros x Hx. apply H; [exact Hx|left; reflexivity]. }
      unfold ssq. rewrite M. rewrite (Rsum_map_ext _ (fun _ => 0)).
      + rewrite Rsum_map_const. lra.
      + intros x Hx. rewrite (H x m0 Hx (or_introl eq_refl)). unfold Rsqr. ring. }
  rewrite <- ZS. split.
  - intros Z. assert (S : sqrt (ssq ms / (n * (n - 1))) = 0).
    { apply Rmult_integral in Z. destruct Z as [Z|Z]; [|exact Z]. exfalso. assert (0 < ln 10 * b ^ 2) by nra. lra. }
    assert (Qd : 0 <= ssq ms / (n * (n - 1))) by (apply Rmult_le_pos; [exact Q|left; apply Rinv_0_lt_compat; exact D]).
    apply sqrt_eq_0 in S; [|exact Qd]. unfold Rdiv in S. apply Rmult_integral in S. destruct S as [S|S]; [exact S|].
    exfalso. apply Rinv_neq_0_compat in S; [exact S|lra].
  - intros ->. unfold Rdiv. rewrite Rmult_0_l, sqrt_0. ring.
Qed.
Print Assumptions C24_nonneg_zero_iff_all_equal.
Theorem C24_order_and_shift : forall ms ms' c b par, Permutation ms ms' ->
  shi_bolt_confidence (map Fin ms) b None par = shi_bolt_confidence (map Fin ms') b None par /\
  shi_bolt_confidence (map (fun m => Fin (m + c)) ms) b None par = shi_bolt_confidence (map Fin ms) b None par.
Proof.
  intros ms ms' c b par P.
  assert (U : Permutation (units ms) (units ms')) by (apply Permutation_map; exact P).
  destruct ms as [|m ms].
  - apply Permutation_nil in P. subst ms'. split; reflexivity.
  - assert (Hne : units (m :: ms) <> []) by discriminate.
    assert (Hne' : units ms' <> []) by (intros F; rewrite F in U; apply Permutation_sym, Permutation_nil in U; discriminate).
    split.
    + rewrite !units_mags, !shi_bolt_u by (try apply units_one; assumption). rewrite (wvar_perm _ _ U), (wsum_perm _ _ U). reflexivity.
    + rewrite <- (map_map (fun x => x + c) Fin), !units_mags.
      assert (Es : units (map (fun x => x + c) (m :: ms)) = shift_l c (units (m :: ms))) by (unfold units, shift_l; rewrite !map_map; reflexivity).
      rewrite Es. rewrite !shi_bolt_u.
      * rewrite wsum_shift, wvar_shift; [reflexivity|]. rewrite units_wsum. apply not_0_INR. discriminate.
      * exact Hne.
      * apply units_one.
      * discriminate.
      * rewrite <- Es. apply units_one.
Qed.
Print Assumptions C24_order_and_shift.
(** the two uncertainties of an estimator *)
Theorem C24_std_beta : forall (o : @obj xr) ms b, (2 <= length ms)%nat ->
  b_value o = Ok (Fin b) -> o_mags o = Some (map Fin ms) -> o_weights o = None ->
  exists s, est_std o = Ok (Fin s) /\ est_std_beta o = Ok (Fin (ln 10 * s)).
Proof.
  intros o ms b Hn Hb Hm Hw. unfold est_std, est_std_beta, est_beta. rewrite Hb, Hw. cbn [rbind rmap]. unfold mags_of. rewrite Hm.
  unfold b_value_to_beta. rewrite x_ofZ, x_ln by lra. rewrite x_mul.
  destruct (C24_formula ms b Hn) as [E1 _]. destruct (C24_formula ms (b * ln 10) Hn) as [_ E2]. cbv zeta in E1, E2.
  rewrite E1, E2. eexists. split; [reflexivity|]. do 2 f_equal. ring.
Qed.
Print Assumptions C24_std_beta.
(** weights: multiplicities, as for the estimate itself; unit weights change nothing, but
    any other common weight does (the "number of events" is the sum of the weights) *)
Theorem C24_unit_weights : forall ms b par, ms <> [] ->
  shi_bolt_confidence (map Fin ms) b (Some (map (fun _ => Fin 1) ms)) par = shi_bolt_confidence (map Fin ms) b None par.
Proof.
  intros ms b par Hne. assert (Hu : units ms <> []) by (destruct ms; [congruence|discriminate]).
  replace (map (fun _ : R => Fin 1) ms) with (map (fun p : R * R => Fin (snd p)) (units ms)) by (unfold units; rewrite map_map; reflexivity).
  rewrite units_mags, shi_bolt_w, shi_bolt_u by (try apply units_one; assumption).
  destruct par; try reflexivity. all: rewrite (proj2 (req_false _ _)); [reflexivity|].
  all: rewrite units_wsum; apply not_0_INR; destruct ms; [congruence|discriminate].
Qed.
Print Assumptions C24_unit_weights.
Theorem C78_equal_weights_refuted : exists ms c b s s', 0 < c /\
  shi_bolt_confidence (map Fin ms) (Fin b) None PB = Ok (Fin s) /\
  shi_bolt_confidence (map Fin ms) (Fin b) (Some (map (fun _ => Fin c) ms)) PB = Ok (Fin s') /\ s' < s.
Proof.
  exists [1; 2], 2, 1. destruct (C24_formula [1; 2] 1) as [E _]; [cbn; lia|].
  assert (M : mean [1; 2] = 3 / 2) by (unfold mean, Rsum; cbn; lra).
  assert (Q : ssq [1; 2] = 1 / 2) by (unfold ssq; rewrite M; unfold Rsum, Rsqr; cbn; lra).
  assert (Wm : wmean [(1, 2); (2, 2)] = 3 / 2) by (unfold wmean, wsum, Rsum; cbn; lra).
  assert (E2 : shi_bolt_confidence (map Fin [1; 2]) (Fin 1) (Some (map (fun _ => Fin 2) [1; 2])) PB
     = Ok (Fin (ln 10 * 1 ^ 2 * sqrt (1 / 12)))).
  { pose proof (C24_formula_weighted [(1, 2); (2, 2)] 1) as H. cbv zeta in H. cbn [map fst snd] in H. cbn [map].
    rewrite H.
    - rewrite Wm. do 3 f_equal. f_equal. unfold wsum, Rsum, Rsqr; cbn. field.
    - intros p [<-|[<-|[]]]; cbn; lra.
    - unfold wsum, Rsum; cbn; lra. }
  eexists _, _. split; [lra|]. split; [exact E|]. split; [exact E2|]. cbv zeta. rewrite Q. simpl INR.
  pose proof ln10_pos. assert (sqrt (1/12) < sqrt (1 / 2 / ((1 + 1) * (1 + 1 - 1)))) by (apply sqrt_lt_1; lra). nra.
Qed.
Print Assumptions C78_equal_weights_refuted.
Theorem C24_integer_weights_repeat : forall (l : list (R * nat)) b par, l <> [] ->
  shi_bolt_confidence (map (fun e => Fin (fst e)) l) b (Some (map (fun e => Fin (INR (S (snd e)))) l)) par
  = shi_bolt_confidence (map Fin (flat_map (fun e => repeat (fst e) (S (snd e))) l)) b None par.
Proof.
  intros l b par Hl. set (rep := flat_map (fun e : R * nat => repeat (fst e) (S (snd e))) l).
  set (lw := map (fun e : R * nat => (fst e, INR (S (snd e)))) l).
  assert (Hr : units rep <> []) by (unfold rep; destruct l; [congruence|discriminate]).
  assert (G : forall f : R -> R, Rsum (map (fun p => snd p * f (fst p)) lw) = Rsum (map (fun p => snd p * f (fst p)) (units rep))).
  { intros f. unfold lw, rep, units. rewrite !map_map. cbn [fst snd]. clear. induction l as [|[m k] l IH]; [reflexivity|].
    cbn [map flat_map]. rewrite map_app, Rsum_app, Rsum_cons, IH. f_equal. cbn [fst snd].
    rewrite (Rsum_map_ext _ (fun _ => f m)).
    - rewrite Rsum_map_const, repeat_length. reflexivity.
    - intros x Hx. apply repeat_spec in Hx. rewrite Hx. ring. }
  assert (EW : wsum lw = wsum (units rep)).
  { unfold wsum. pose proof (G (fun _ => 1)) as H. rewrite !(Rsum_map_ext (fun p : R * R => snd p * 1) snd) in H by (intros; ring). exact H. }
  assert (EM : wmean lw = wmean (units rep)) by (unfold wmean; rewrite EW; f_equal; apply (G (fun x => x))).
  assert (EV : wvar lw = wvar (units rep)) by (unfold wvar; rewrite EW, EM; f_equal; apply (G (fun x => Rsqr (x - wmean (units rep))))).
  replace (map (fun e : R * nat => Fin (fst e)) l) with (map (fun p : R * R => Fin (fst p)) lw) by (unfold lw; rewrite map_map; reflexivity).
  replace (map (fun e : R * nat => Fin (INR (S (snd e)))) l) with (map (fun p : R * R => Fin (snd p)) lw) by (unfold lw; rewrite map_map; reflexivity).
  rewrite units_mags, shi_bolt_w, shi_bolt_u, EW, EV by (try apply units_one; assumption).
  destruct par; try reflexivity. all: rewrite (proj2 (req_false _ _)); [reflexivity|].
  all: rewrite units_wsum; apply not_0_INR; intros F; apply length_zero_iff_nil in F; apply Hr; unfold units; rewrite F; reflexivity.
Qed.
Print Assumptions C24_integer_weights_repeat.

(** ** C25: b and beta *)
Theorem C25_inverse : forall x : xr, b_value_to_beta (beta_to_b_value x) = x /\ beta_to_b_value (b_value_to_beta x) = x.
Proof.
  intros x. pose proof ln10_pos as H. unfold b_value_to_beta, beta_to_b_value. rewrite x_ofZ, x_ln by lra.
  destruct x as [r| | |]; [rewrite x_div, !x_mul, x_div by lra; split; f_equal; field; lra| | |];
  cbn; destruct (Req_EM_T (ln 10) 0); try lra; destruct (Rlt_dec 0 (ln 10)); try lra; cbn;
  destruct (Req_EM_T (ln 10) 0); try lra; destruct (Rlt_dec 0 (ln 10)); try lra; split; reflexivity.
Qed.
Print Assumptions C25_inverse.
Theorem C25_beta_after_calculate : forall srt k w (a : @args xr) o o' b, calculate srt k w a o = (o', Ok b) ->
  b_value o' = Ok b /\ exists beta, est_beta o' = Ok beta /\ beta = nmul b (Fin (ln 10)) /\ b = ndiv beta (Fin (ln 10)).
Proof.
  intros srt k w a o o' b C. apply calculate_inv in C. destruct C as (u & _ & -> & F).
  destruct F as (_ & _ & _ & _ & _ & F & _).
  assert (B : b_value o' = Ok (u_b u)) by (unfold b_value; rewrite F; reflexivity). split; [exact B|].
  unfold est_beta. rewrite B. cbn [rmap]. eexists. split; [reflexivity|].
  destruct (C25_inverse (u_b u)) as [_ E]. unfold b_value_to_beta, beta_to_b_value in *. rewrite x_ofZ, x_ln in * by lra.
  split; [reflexivity|]. symmetry. exact E.
Qed.
Print Assumptions C25_beta_after_calculate.

(** ** C27: bootstrap standard deviation *)
(** [draws] are the resamples; [est] the estimates on them *)
Lemma mapM_spec {A B} (f : A -> res B) l ys : mapM f l = Ok ys <-> Forall2 (fun x y => f x = Ok y) l ys.
Proof.
  revert ys. induction l as [|x l IH]; intros ys; cbn [mapM].
  - split; [intros E; injection E as <-; constructor|intros H; inversion H; reflexivity].
  - destruct (f x) as [y|e] eqn:E; cbn [rbind].
    + destruct (mapM f l) as [zs|e] eqn:M; cbn [rbind].
      * split; [intros H; injection H as <-; constructor; [exact E|apply IH; reflexivity]|].
        intros H. inversion H; subst. rewrite E in H2. injection H2 as ->. apply IH in H4. injection H4 as ->. reflexivity.
      * split; [discriminate|]. intros H. inversion H; subst. apply IH in H4. discriminate.
    + split; [discriminate|]. intros H. inversion H; subst. congruence.
Qed.
Lemma finite_filter (est : list xr) : filter (fun e => negb (nisinf e) && negb (nisnan e)) est = map Fin (fins est).
Proof. induction est as [|e est IH]; [reflexivity|]. destruct e; cbn in *; rewrite IH; reflexivity. Qed.
Lemma x_std1 v : (2 <= length v)%nat -> np_std1 (map Fin v) = Fin (sqrt (ssq v / (INR (length v) - 1))).
Proof.
  intros H. pose proof (len2 v H) as H2. unfold np_std1. rewrite x_mean by (destruct v; [cbn in H; lia|discriminate]). fold (mean v).
  rewrite map_map. replace (map (fun x => square (nsub (Fin x) (Fin (mean v)))) v) with (map Fin (map (fun m => Rsqr (m - mean v)) v))
    by (rewrite map_map; reflexivity).
  rewrite x_sum. fold (ssq v). rewrite map_length, x_ofZ, minus_IZR, <- INR_IZR_INZ, x_div by lra. apply x_sqrt.
  apply Rmult_le_pos; [apply ssq_nonneg|]. left. apply Rinv_0_lt_compat. lra.
Qed.
Theorem C27_bootstrap_std : forall A (draws : list (list A)) (func : list A -> res xr) est,
  Forall2 (fun d e => func d = Ok e) draws est ->
  let v := fins est in   (* the finite estimates *)
  ((forall e, In e est -> e = NaN \/ e = PInf \/ e = NInf) -> bootstrap_std draws func = Err ValueError) /\
  ((exists x, In (Fin x) est) -> bootstrap_std draws func <> Err ValueError) /\
  (length v = 1%nat -> bootstrap_std draws func = Ok NaN) /\
  ((2 <= length v)%nat -> bootstrap_std draws func = Ok (Fin (sqrt (ssq v / (INR (length v) - 1))))).
Proof.
  intros A draws func est H v. apply mapM_spec in H. unfold bootstrap_std. rewrite H. cbn [rbind]. rewrite finite_filter. fold v.
  assert (Ex : v = [] \/ exists x, In (Fin x) est).
  { destruct v as [|x t] eqn:E; [left; reflexivity|right]. exists x. apply in_fins. fold v. rewrite E. left; reflexivity. }
  repeat split.
  - intros Ha. destruct Ex as [->|(x & Hx)]; [reflexivity|]. destruct (Ha _ Hx) as [F|[F|F]]; discriminate.
  - intros (x & Hx). apply in_fins in Hx. fold v in Hx. destruct v; [destruct Hx|]. cbn. discriminate.
  - intros L. destruct v as [|x [|y t]]; try discriminate. cbn [map]. f_equal. unfold np_std1, nmean. cbn.
    destruct (Req_EM_T 1 0); [lra|]. cbn. destruct (Req_EM_T 0 0); [|lra].
    assert (Z : ((x + - ((x + 0) / 1)) * (x + - ((x + 0) / 1)) + 0) = 0) by (field). rewrite Z.
    destruct (Rlt_dec 0 0); [lra|]. reflexivity.
  - intros L. destruct v as [|x t] eqn:E; [cbn in L; lia|]. rewrite x_std1 by exact L. reflexivity.
Qed.
Print Assumptions C27_bootstrap_std.
(** an exception of the statistic on one resample is passed on *)
Theorem C27_statistic_error : forall T (N : Num T) A (draws : list (list A)) (func : list A -> res T) e,
  (exists pre d post, draws = pre ++ d :: post /\ func d = Err e /\ forall x, In x pre -> exists y, func x = Ok y) ->
  bootstrap_std draws func = Err e.
Proof.
  intros T N A draws func e (pre & d & post & -> & E & Hp). unfold bootstrap_std.
  assert (M : mapM func (pre ++ d :: post) = Err e).
  { induction pre as [|x pre IH]; cbn [app mapM]; [rewrite E; reflexivity|].
    destruct (Hp x (or_introl eq_refl)) as (y & ->). cbn [rbind]. rewrite IH; [reflexivity|]. intros z Hz. apply Hp. right; exact Hz. }
  rewrite M. reflexivity.
Qed.
Print Assumptions C27_statistic_error.
Example C27_example : Forall2 (fun d e => (fun l : list xr => match l with [] => Ok NaN | x :: _ => Ok x end) d = Ok e)
  [[Fin 1]; []; [Fin 3]] [Fin 1; NaN; Fin 3] /\ fins [Fin 1; NaN; Fin 3] = [1; 3].
Proof. split; [repeat constructor|reflexivity]. Qed.

(** ** C29: estimate_b *)
Definition std_of {T} {N : Num T} srt k w draws par (o : @obj T) : res T :=
  match k, par with
  | BMorePositive, PB => more_positive_std srt w draws o
  | BMorePositive, _ => rmap (fun s => nmul s (nln (ofZ 10))) (more_positive_std srt w draws o)
  | _, PB => est_std o
  | _, _ => est_std_beta o
  end.
Theorem C29_outputs : forall T (N : Num T) srt k w (a : @args T) draws o b,
  calculate srt k w a new_obj = (o, Ok b) ->
  forall par v, (par = PB /\ v = b) \/ (par = PBeta /\ v = b_value_to_beta b) ->
  estimate_b srt k w a par false false draws = Ok (OutB v) /\
  estimate_b srt k w a par true false draws = rmap (OutBStd v) (std_of srt k w draws par o) /\
  estimate_b srt k w a par true true draws =
    rmap (fun s => OutBStdN v s (length (match o_mags o with Some l => l | None => [] end))) (std_of srt k w draws par o).
Proof.
  intros T N srt k w a draws o b C par v Hv. unfold estimate_b. rewrite C. cbn [rbind].
  apply calculate_inv in C. destruct C as (u & _ & -> & F). destruct F as (_ & _ & _ & _ & _ & F & _).
  assert (B : b_value o = Ok (u_b u)) by (unfold b_value; rewrite F; reflexivity).
  assert (P : match par with PB => b_value o | PBeta => est_beta o | POther => Err ValueError end = Ok v).
  { unfold est_beta. destruct Hv as [[-> ->]|[-> ->]]; rewrite B; reflexivity. }
  assert (Hn : par <> POther) by (destruct Hv as [[-> _]|[-> _]]; discriminate).
  rewrite P. cbn [rbind]. split; [reflexivity|].
  assert (S : (match k with BMorePositive => match par with PB => more_positive_std srt w draws o | _ => rmap b_value_to_beta (more_positive_std srt w draws o) end
              | _ => match par with PB => est_std o | _ => est_std_beta o end end) = std_of srt k w draws par o)
    by (destruct k, par; reflexivity).
  rewrite S. destruct (std_of srt k w draws par o) as [s|e]; cbn [rmap rbind]; split; try reflexivity.
  unfold est_n. rewrite B. reflexivity.
Qed.
Print Assumptions C29_outputs.
Theorem C29_errors : forall T (N : Num T) srt k w (a : @args T) draws par rs rn,
  (forall e, snd (calculate srt k w a new_obj) = Err e -> estimate_b srt k w a par rs rn draws = Err e) /\
  (forall b, snd (calculate srt k w a new_obj) = Ok b -> estimate_b srt k w a POther rs rn draws = Err ValueError).
Proof.
  intros. unfold estimate_b. destruct (calculate srt k w a new_obj) as [o r]. cbn [snd]. split; [intros e ->|intros b ->]; reflexivity.
Qed.
Print Assumptions C29_errors.
(** missing from the full property: return_n without return_std always raises TypeError *)
Theorem C79_return_n_alone_refuted : forall T (N : Num T) srt k w (a : @args T) draws b par, par = PB \/ par = PBeta ->
  snd (calculate srt k w a new_obj) = Ok b -> estimate_b srt k w a par false true draws = Err TypeError.
Proof.
  intros T N srt k w a draws b par Hp Hc. unfold estimate_b.
  destruct (calculate srt k w a new_obj) as [o r] eqn:C. cbn [snd] in Hc. subst r. cbn [rbind].
  apply calculate_inv in C. destruct C as (u & _ & _ & F). destruct F as (_ & _ & _ & _ & _ & F & _).
  unfold est_beta, b_value. rewrite F. destruct Hp as [->| ->]; reflexivity.
Qed.
Print Assumptions C79_return_n_alone_refuted.
Example C29_example : exists o b, calculate ex_srt Classic true (argsg true ex_ev 1 (mkdec 1 0)) new_obj = (o, Ok b).
Proof. destruct C09_example as (o' & E). eauto. Qed.
