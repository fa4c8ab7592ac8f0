(** * C40, C85, C37: values_from_partitioning, and sorting along x_variable *)
From Coq Require Import ZArith List Bool Lia Reals Lra Permutation Sorted.
From Verif Require Import Base Num XR RList SortLib Binning_model BinTest_proofs BValue_model BValue_run BValue_proofs BValue_real AValue_model AValue_proofs BSig_model
  Spec_BSig Spec_Positive Positive_proofs Props_BValue Props_BValue2 Props_AValue Props_Positive Props_BSig Moran_proofs Props_BSig2.
Import ListNotations.

(** ** C40 *)
(** a part: magnitudes, times, completeness magnitude, scaling factor *)
Definition part (T : Type) : Type := (list T * list T * T * T)%type.
Definition p_mags {T} (p : part T) := fst (fst (fst p)).
Definition p_times {T} (p : part T) := snd (fst (fst p)).
Definition p_mc {T} (p : part T) := snd (fst p).
Definition p_scale {T} (p : part T) := snd p.

Section C40.
  Context {T : Type} {N : Num T} (srt : list T -> list nat) (Hs : argsort_ok srt).
  (** an estimator of class [m] that may have been used before *)
  Definition used (m : meth) (e : estimator T) : Prop :=
    match m, e with
    | MB _, EB _ => True
    | MA k, EA o => k = AClassic -> ao_times o = None /\ ao_dmc o = None
    | _, _ => False
    end.
  Lemma new_used m : used m (new_estimator m).
  Proof. destruct m; cbn; auto. Qed.

  Lemma evaluate_any m wn kw delta draws mags times mc sc e1 e2 : length times = length mags -> used m e1 -> used m e2 ->
    snd (evaluate srt m wn kw delta draws mags times mc sc e1) = snd (evaluate srt m wn kw delta draws mags times mc sc e2) /\
    (forall r, snd (evaluate srt m wn kw delta draws mags times mc sc e1) = Ok r -> used m (fst (evaluate srt m wn kw delta draws mags times mc sc e1))).
  Proof.
    intros Hl U1 U2. destruct m as [k|k], e1 as [o1|o1], e2 as [o2|o2]; try contradiction; cbn [evaluate].
    - pose proof (calculate_any_objects T N srt k o1 o2 wn wn (mkargs mags mc delta (kw_weights kw) None (kw_dmc kw))) as H.
      destruct (calculate srt k wn _ o1) as [oa ra]. destruct (calculate srt k wn _ o2) as [ob rb]. destruct H as [<- H]. cbn [fst snd]. split; [|intros; exact I].
      destruct ra as [b|e]; [|reflexivity]. destruct (H b eq_refl) as (_ & _ & _ & _ & _ & Eb & _ & En & Es & _ & Em). cbn [rbind]. rewrite Eb, En.
      destruct k; try rewrite Es; try reflexivity. destruct (Em (or_intror eq_refl)) as (_ & _ & Ed). rewrite (Ed wn wn). reflexivity.
    - pose proof (C74_history_independent T N srt k wn wn (mkaargs mags mc delta (Some sc) (kw_mref kw) (kw_b kw) times (kw_dmc kw)) o1 [] o2 [] Hs (fun _ => Hl)) as H.
      cbn in U1, U2. lapply H; [clear H; intros H|intros K; destruct (U1 K) as [-> ->], (U2 K) as [-> ->]; split; reflexivity].
      destruct (a_calculate srt k wn _ (o1, [])) as [[oa wa] ra] eqn:Ea. destruct (a_calculate srt k wn _ (o2, [])) as [[ob wb] rb]. destruct H as [<- H]. cbn [fst snd] in *.
      destruct ra as [v|e]; [|split; [reflexivity|discriminate]]. cbn [rbind]. rewrite (H v eq_refl). split; [reflexivity|].
      intros r _. rewrite <- (H v eq_refl). cbn. intros ->.
      pose proof (a_classic_run srt wn (mkaargs mags mc delta (Some sc) (kw_mref kw) (kw_b kw) times (kw_dmc kw)) o1 []) as R.
      rewrite Ea in R. destruct (check _).
      + destruct R as (ws' & R). cbv zeta in R. specialize (U1 eq_refl).
        destruct (f_mags _); [injection R as -> _ _; exact U1|]. destruct (a_reference_scaling _ _); injection R as -> _ _; exact U1.
      + destruct R as (s' & R & _). discriminate.
  Qed.

  Lemma evaluate_part_any m wn kw delta draws mags times mc sc e1 e2 : used m e1 -> used m e2 ->
    snd (evaluate_part srt m wn kw delta draws mags times mc sc e1) = snd (evaluate_part srt m wn kw delta draws mags times mc sc e2) /\
    (forall r, snd (evaluate_part srt m wn kw delta draws mags times mc sc e1) = Ok r -> used m (fst (evaluate_part srt m wn kw delta draws mags times mc sc e1))).
  Proof.
    intros U1 U2. unfold evaluate_part. destruct mags as [|x mags]; [split; [reflexivity|intros; exact U1]|].
    destruct (gather (x :: mags) (srt times)) as [m'|] eqn:G1; [|split; [reflexivity|discriminate]].
    destruct (gather times (srt times)) as [t'|] eqn:G2; [|split; [reflexivity|discriminate]].
    apply evaluate_any; try assumption. apply gather_length in G1, G2. congruence.
  Qed.

  Lemma evaluate_all_fresh m wn kw delta draws parts : forall ii e, used m e ->
    evaluate_all srt m wn kw delta draws ii (map p_mags parts) (map p_times parts) (map p_mc parts) (map p_scale parts) e
    = mapM (fun q => snd (evaluate_part srt m wn kw delta (draws (fst q)) (p_mags (snd q)) (p_times (snd q)) (p_mc (snd q)) (p_scale (snd q)) (new_estimator m)))
        (combine (seq ii (length parts)) parts).
  Proof.
    induction parts as [|p parts IH]; intros ii e U; [reflexivity|]. cbn [map evaluate_all length seq combine mapM fst snd].
    destruct (evaluate_part_any m wn kw delta (draws ii) (p_mags p) (p_times p) (p_mc p) (p_scale p) e (new_estimator m) U (new_used m)) as [E K].
    rewrite <- E. destruct (evaluate_part srt m wn kw delta (draws ii) (p_mags p) (p_times p) (p_mc p) (p_scale p) e) as [e' [r|x]]; cbn [fst snd] in *; [|reflexivity].
    cbn [rbind]. rewrite (IH (S ii) e' (K r eq_refl)). reflexivity.
  Qed.
End C40.

(** The results of all parts are, one by one, the results of calls with a single part; if
    some of these raise, the first exception is raised. [draws i] are the bootstrap resamples
    used for part i. *)
Theorem C40_parts_are_independent : forall T (N : Num T) srt m wn kw draws delta (parts : list (part T)), argsort_ok srt ->
  values_from_partitioning srt m wn kw draws (map p_mags parts) (map p_times parts) (Array (map p_mc parts)) delta (Some (map p_scale parts))
  = rmap (@concat _) (mapM (fun q =>
      values_from_partitioning srt m wn kw (fun _ => draws (fst q)) [p_mags (snd q)] [p_times (snd q)] (Array [p_mc (snd q)]) delta (Some [p_scale (snd q)]))
      (combine (seq 0 (length parts)) parts)).
Proof.
  intros T N srt m wn kw draws delta parts Hs.
  assert (S1 : forall d (parts : list (part T)), values_from_partitioning srt m wn kw d (map p_mags parts) (map p_times parts) (Array (map p_mc parts)) delta (Some (map p_scale parts))
    = mapM (fun q => snd (evaluate_part srt m wn kw delta (d (fst q)) (p_mags (snd q)) (p_times (snd q)) (p_mc (snd q)) (match m with MA _ => p_scale (snd q) | MB _ => one end) (new_estimator m)))
        (combine (seq 0 (length parts)) parts)).
  { intros d ps. unfold values_from_partitioning. rewrite !map_length, Nat.eqb_refl. cbn [negb rbind].
    destruct m as [k|k].
    - assert (E : repeat one (length ps) = map p_scale (map (fun p => (fst p, one)) ps)) by (rewrite map_map; cbn; induction ps; cbn; congruence).
      rewrite E. rewrite <- (map_length (fun p : part T => (fst p, one)) ps).
      replace (map p_mags ps) with (map p_mags (map (fun p : part T => (fst p, one)) ps)) by (rewrite map_map; reflexivity).
      replace (map p_times ps) with (map p_times (map (fun p : part T => (fst p, one)) ps)) by (rewrite map_map; reflexivity).
      replace (map p_mc ps) with (map p_mc (map (fun p : part T => (fst p, one)) ps)) by (rewrite map_map; reflexivity).
      rewrite (evaluate_all_fresh srt Hs) by apply new_used. rewrite map_length.
      generalize 0%nat. induction ps as [|p ps IH]; intros st; [reflexivity|]. cbn [map length seq combine mapM fst snd]. rewrite IH; [reflexivity|].
      cbn [length repeat map] in E. injection E as E. exact E.
    - rewrite (evaluate_all_fresh srt Hs) by apply new_used. reflexivity. }
  rewrite S1. generalize (combine (seq 0 (length parts)) parts). induction l as [|q l IH]; [reflexivity|]. cbn [mapM].
  pose proof (S1 (fun _ => draws (fst q)) [snd q]) as S2. cbn [map length seq combine mapM fst snd] in S2. rewrite S2, IH.
  destruct (snd (evaluate_part _ _ _ _ _ _ _ _ _ _ _)); [|reflexivity]. cbn [rbind]. clear IH; destruct (mapM (fun q => values_from_partitioning _ _ _ _ _ _ _ _ _ _) l); reflexivity.
Qed.
Print Assumptions C40_parts_are_independent.

(** one part: nothing in, NaN out; otherwise what the estimator gives for its magnitudes in
    the order of the times *)
Theorem C40_empty_part : forall T (N : Num T) srt m wn kw draws delta times mc sc,
  values_from_partitioning srt m wn kw draws [[]] [times] (Array [mc]) delta sc = Err IndexError \/
  values_from_partitioning srt m wn kw draws [[]] [times] (Array [mc]) delta sc = Ok [(nnan, nnan, 0%nat)].
Proof.
  intros. unfold values_from_partitioning. cbn [length Nat.eqb negb rbind].
  destruct m; [right; reflexivity|]. destruct sc as [[|s l]|]; [left; reflexivity|right..]; reflexivity.
Qed.
Print Assumptions C40_empty_part.
Theorem C40_single_part_b : forall T (N : Num T) srt k wn kw draws delta mags times mc sc order,
  mags <> [] -> srt times = order -> forall sorted, gather mags order = Ok sorted -> length times = length mags -> argsort_ok srt ->
  values_from_partitioning srt (MB k) wn kw draws [mags] [times] (Array [mc]) delta sc
  = match estimate_b srt k wn (mkargs sorted mc delta (kw_weights kw) None (kw_dmc kw)) PB true true (draws 0%nat) with
    | Ok (OutBStdN b s n) => Ok [(b, s, n)]
    | Ok _ => Err TypeError
    | Err e => Err e
    end.
Proof.
  intros T N srt k wn kw draws delta mags times mc sc order Hne Ho sorted Hg Hl Hs. unfold values_from_partitioning. cbn [length Nat.eqb negb rbind repeat evaluate_all new_estimator].
  unfold evaluate_part. destruct mags as [|x mags]; [congruence|]. rewrite Ho, Hg.
  destruct (gather_perm times order) as (t' & Gt & _); [rewrite <- Ho; apply (proj1 (Hs times))|]. rewrite Gt. cbn [evaluate].
  unfold estimate_b. destruct (calculate srt k wn _ new_obj) as [o r]. destruct r as [b|e]; [|reflexivity]. cbn [rbind].
  destruct (b_value o) as [b'|]; [|reflexivity]. cbn [rbind]. destruct k; cbn [rmap rbind].
  all: match goal with |- context [rmap Some ?s] => destruct s as [s'|]; cbn [rmap rbind]; [|reflexivity] end; destruct (est_n o); reflexivity.
Qed.
Print Assumptions C40_single_part_b.
Theorem C40_scalar_mc : forall T (N : Num T) srt m wn kw draws delta lm lt c sc,
  values_from_partitioning srt m wn kw draws lm lt (Scalar c) delta sc = values_from_partitioning srt m wn kw draws lm lt (Array (repeat c (length lm))) delta sc.
Proof. intros. unfold values_from_partitioning. rewrite repeat_length, Nat.eqb_refl. reflexivity. Qed.
Print Assumptions C40_scalar_mc.
Theorem C40_lengths : forall T (N : Num T) srt m wn kw draws delta lm lt cs sc,
  (length lm <> length lt \/ length lm <> length cs -> values_from_partitioning srt m wn kw draws lm lt (Array cs) delta sc = Err IndexError) /\
  (forall r, values_from_partitioning srt m wn kw draws lm lt (Array cs) delta sc = Ok r -> length r = length lm).
Proof.
  intros. unfold values_from_partitioning. destruct (Nat.eqb_spec (length lm) (length lt)) as [E|E]; cbn [negb].
  2:{ split; [reflexivity|discriminate]. }
  destruct (Nat.eqb_spec (length lm) (length cs)) as [E2|E2].
  2:{ split; [reflexivity|discriminate]. }
  split; [intros [H|H]; contradiction|]. cbn [rbind]. intros r H.
  generalize dependent r. generalize (@new_estimator T m). generalize 0%nat. set (lsc := match m with MB _ => _ | MA _ => _ end). clearbody lsc. clear E E2. revert lt cs lsc.
  induction lm as [|x lm IH]; intros lt cs lsc ii e r H; [cbn in H; injection H as <-; reflexivity|].
  cbn [evaluate_all] in H. destruct lt as [|t lt], cs as [|c cs], lsc as [|s lsc]; try discriminate.
  destruct (evaluate_part srt m wn kw delta (draws ii) x t c s e) as [e' [y|]]; [|discriminate]. cbn [rbind] in H.
  destruct (evaluate_all _ _ _ _ _ _ _ _ _ _ _ e') as [ys|] eqn:Ey; [|discriminate]. cbn [rbind] in H. injection H as <-. cbn [length]. f_equal. eapply IH. exact Ey.
Qed.
Print Assumptions C40_lengths.

(** ** C85: sorting along x_variable *)
Open Scope R_scope.
(** magnitude, time, completeness magnitude; coordinate *)
Notation event2 := (event1 * R)%type.
Definition by_x (a b : event2) : Prop := snd a <= snd b.
Lemma sort_gather srt (ev : list event2) : argsort_ok srt ->
  exists ev', gather ev (srt (map (fun e => Fin (snd e)) ev)) = Ok ev' /\ Permutation ev' ev /\ StronglySorted by_x ev'.
Proof.
  intros Hs. destruct (Hs (map (fun e => Fin (snd e)) ev)) as [P S]. rewrite map_length in P.
  destruct (gather_perm ev _ P) as (ev' & G & Pe). exists ev'. split; [exact G|]. split; [exact Pe|].
  destruct ev as [|d ev0] eqn:Ee; [apply Permutation_sym, Permutation_nil in Pe; subst; constructor|]. rewrite <- Ee in *.
  rewrite (gather_nth _ _ _ d G). apply (StronglySorted_map_in (not_later (map (fun e => Fin (snd e)) ev))); [exact S|].
  intros i j Hi Hj H. apply (Permutation_in _ P) in Hi. apply (Permutation_in _ P) in Hj. apply in_seq in Hi, Hj.
  unfold not_later in H. specialize (H (Fin (snd (nth i ev d))) (Fin (snd (nth j ev d)))).
  rewrite !nth_error_map, !(nth_error_nth' ev d) in H by (first [exact (proj2 Hi)|exact (proj2 Hj)]). specialize (H eq_refl eq_refl). cbn in H. apply rle_true in H. exact H.
Qed.

(** the series that b_significant_1D works with is the one sorted along x_variable *)
Theorem C85_x_variable_sorts : forall srt cdf m wn kw draws (ev sorted : list event2) c delta n min_num cons, argsort_ok srt ->
  Permutation sorted ev -> StronglySorted (fun a b => snd a < snd b) sorted ->
  b_significant_1D srt cdf m wn kw draws (map (fun e => ev_m (fst e)) ev) (Scalar c) delta (map (fun e => ev_t (fst e)) ev) n min_num
    (Some (map (fun e => Fin (snd e)) ev)) cons
  = b_significant_1D srt cdf m wn kw draws (map (fun e => ev_m (fst e)) sorted) (Scalar c) delta (map (fun e => ev_t (fst e)) sorted) n min_num None cons.
Proof.
  intros srt cdf m wn kw draws ev sorted c delta n min_num cons Hs P S. unfold b_significant_1D.
  assert (Hl : length sorted = length ev) by (apply Permutation_length; exact P).
  assert (E : prepare_1D srt (map (fun e => ev_m (fst e)) ev) (Scalar c) delta (map (fun e => ev_t (fst e)) ev) n min_num (Some (map (fun e => Fin (snd e)) ev))
    = prepare_1D srt (map (fun e => ev_m (fst e)) sorted) (Scalar c) delta (map (fun e => ev_t (fst e)) sorted) n min_num None).
  { unfold prepare_1D. rewrite !map_length, !Nat.eqb_refl, Hl. cbn [negb]. destruct (n <? min_num)%nat; [reflexivity|].
    destruct (sort_gather srt ev Hs) as (ev' & G & Pe & Se).
    assert (ev' = sorted) as ->.
    { apply (sorted_perm_unique by_x).
      - intros a b Ha Hb R1 R2. unfold by_x in *. apply (Permutation_in _ Pe), (Permutation_in _ (Permutation_sym P)) in Ha.
        apply (Permutation_in _ Pe), (Permutation_in _ (Permutation_sym P)) in Hb.
        clear - S Ha Hb R1 R2. induction S as [|z l S IH F]; [destruct Ha|]. rewrite Forall_forall in F.
        destruct Ha as [->|Ha], Hb as [->|Hb]; auto.
        + apply F in Hb. lra.
        + apply F in Ha. lra.
      - exact Se.
      - clear - S. induction S as [|z l S IH F]; constructor; [exact IH|]. rewrite Forall_forall in *. intros x Hx. apply F in Hx. unfold by_x. lra.
      - eapply Permutation_trans; [exact Pe|]. apply Permutation_sym. exact P. }
    rewrite !gather_map, G. cbn [rmap rbind]. reflexivity. }
  rewrite E. reflexivity.
Qed.
Print Assumptions C85_x_variable_sorts.
(** hence the order in which the events are given does not matter *)
Theorem C85_order_irrelevant : forall srt cdf m wn kw draws (ev ev' : list event2) c delta n min_num cons, argsort_ok srt ->
  Permutation ev ev' -> NoDup (map snd ev) ->
  b_significant_1D srt cdf m wn kw draws (map (fun e => ev_m (fst e)) ev) (Scalar c) delta (map (fun e => ev_t (fst e)) ev) n min_num
    (Some (map (fun e => Fin (snd e)) ev)) cons
  = b_significant_1D srt cdf m wn kw draws (map (fun e => ev_m (fst e)) ev') (Scalar c) delta (map (fun e => ev_t (fst e)) ev') n min_num
    (Some (map (fun e => Fin (snd e)) ev')) cons.
Proof.
  intros srt cdf m wn kw draws ev ev' c delta n min_num cons Hs P ND.
  destruct (sort_gather srt ev Hs) as (so & _ & Ps & Ss).
  assert (NDs : NoDup (map snd so)) by (eapply Permutation_NoDup; [apply Permutation_sym, Permutation_map; exact Ps|exact ND]).
  assert (St : StronglySorted (fun a b : event2 => snd a < snd b) so).
  { clear - Ss NDs. induction Ss as [|z l S IH F]; [constructor|]. cbn in NDs. inversion NDs; subst. constructor; [apply IH; assumption|].
    rewrite Forall_forall in *. intros x Hx. specialize (F x Hx). unfold by_x in F. destruct (Req_dec (snd z) (snd x)) as [Q|Q]; [|lra].
    exfalso. apply H1. rewrite Q. apply in_map. exact Hx. }
  rewrite (C85_x_variable_sorts srt cdf m wn kw draws ev so c delta n min_num cons Hs Ps St). symmetry.
  apply C85_x_variable_sorts; [exact Hs| |exact St]. eapply Permutation_trans; [exact Ps|exact P].
Qed.
Print Assumptions C85_order_irrelevant.
Example C85_example : argsort_ok xr_argsort /\ NoDup (map snd [((Fin 1, Fin 3, Fin 0), 2); ((Fin 2, Fin 1, Fin 0), 1)]) /\
  StronglySorted (fun a b : event2 => snd a < snd b) [((Fin 2, Fin 1, Fin 0), 1); ((Fin 1, Fin 3, Fin 0), 2)].
Proof.
  split; [exact xr_argsort_ok|]. split; [cbn; repeat constructor; cbn; intuition lra|]. repeat constructor; cbn; lra.
Qed.

(** ** C37: completeness magnitudes per event *)
(** The property: sorting along x_variable keeps each event with its own completeness
    magnitude. It is false: mc keeps the order of the input. *)
Definition run2 srt cdf (ev : list event2) : res (xr * xr * xr * xr) :=
  b_significant_1D srt cdf (MA AClassic) false (mkkw None None None None) (fun _ _ => []) (map (fun e => ev_m (fst e)) ev) (Array (map (fun e => ev_c (fst e)) ev)) (mkdec 0 0)
    (map (fun e => ev_t (fst e)) ev) 1 1 (Some (map (fun e => Fin (snd e)) ev)) true.
Definition four : list event2 := map (fun x => ((Fin x, Fin x, Fin x), x)) [1; 2; 3; 4].
Lemma four_sorted : StronglySorted (fun a b : event2 => snd a < snd b) four.
Proof. unfold four. cbn. repeat constructor; cbn; lra. Qed.
Lemma gather_four srt (ev : list event2) : argsort_ok srt -> Permutation four ev -> gather ev (srt (map (fun e => Fin (snd e)) ev)) = Ok four.
Proof.
  intros Hs P. destruct (sort_gather srt ev Hs) as (so & G & Ps & Ss). rewrite G. f_equal.
  apply (sorted_perm_unique by_x).
  - intros a b Ha Hb R1 R2. apply (Permutation_in _ Ps), (Permutation_in _ (Permutation_sym P)) in Ha.
    apply (Permutation_in _ Ps), (Permutation_in _ (Permutation_sym P)) in Hb. unfold by_x in *.
    cbn in Ha, Hb. repeat (destruct Ha as [<-|Ha]; [|]); try contradiction; repeat (destruct Hb as [<-|Hb]; [|]); try contradiction; cbn in *; try reflexivity; exfalso; lra.
  - exact Ss.
  - unfold four, by_x. cbn. repeat constructor; cbn; lra.
  - eapply Permutation_trans; [exact Ps|]. apply Permutation_sym. exact P.
Qed.
Lemma check_one c x : check (to_b (mkaargs [Fin x] c (mkdec 0 0) (Some (@one xr _)) None None [Fin x] None)) = Ok tt.
Proof.
  apply a_check_ok. right. cbn [aa_mags aa_delta]. rewrite x_lit. rewrite binning_test_unfold_nz.
  - rewrite binning_test_delta_small; [reflexivity|]. rewrite decR0. apply Rdiv_lt_0_compat; [lra|]. apply IZR_lt. reflexivity.
  - intros v [<-|[]]. split; discriminate.
  - discriminate.
  - right. reflexivity.
Qed.
Lemma eval_one srt x ws o : argsort_ok srt ->
  exists o' ws', a_calculate srt AClassic false (mkaargs [Fin x] (Fin x) (mkdec 0 0) (Some one) None None [Fin x] None) (o, ws) = ((o', ws'), Ok (Fin 0)) /\
  a_value o' = Ok (Fin 0) /\ a_n o' = Ok 1%nat.
Proof.
  intros Hs.
  pose proof (a_classic_run srt false (mkaargs [Fin x] (Fin x) (mkdec 0 0) (Some one) None None [Fin x] None) o ws) as R. rewrite check_one in R.
  destruct R as (ws' & R). cbv zeta in R. rewrite f_mags_filter in R. cbn [aa_mags aa_mc aa_delta filter] in R. rewrite half_fin, decR0, x_sub, x_leb in R.
  rewrite (proj2 (rle_true _ _)) in R by lra.
  unfold a_reference_scaling in R. cbn [aa_mref aa_scaling rbind length] in R.
  assert (E : nsub (nlog10 (ofnat 1)) (nlog10 (@one xr _)) = Fin 0).
  { unfold ofnat. change (@ofZ xr _) with (fun z => Fin (IZR z)). cbv beta. rewrite x_one. change (IZR (Z.of_nat 1)) with 1. rewrite x_log10 by lra. rewrite x_sub. f_equal. lra. }
  rewrite E in R. eexists _, ws'. split; [exact R|]. split; reflexivity.
Qed.
Lemma srt_one srt t : argsort_ok (T := xr) srt -> srt [t] = [0%nat].
Proof. intros Hs. destruct (Hs [t]) as [P _]. cbn in P. apply Permutation_sym, Permutation_length_1_inv in P. exact P. Qed.
Lemma starts_1 : starts 1 4 0 = [0; 1; 2; 3]%nat.
Proof. reflexivity. Qed.
Theorem C37_mc_not_sorted_refuted : forall srt cdf, argsort_ok srt ->
  Permutation four (rev four) /\
  run2 srt cdf (rev four) = Ok (NaN, NaN, NaN, NaN) /\
  exists p mac sd, run2 srt cdf four = Ok (p, mac, Fin (- 1 / 4), sd).
Proof.
  intros srt cdf Hs. split; [apply Permutation_rev|].
  assert (P4 : forall ev, Permutation four ev -> length ev = 4%nat) by (intros ev P; rewrite <- (Permutation_length P); reflexivity).
  split.
  - unfold run2, b_significant_1D, prepare_1D. rewrite !map_length, Nat.eqb_refl. cbn [negb Nat.ltb Nat.leb].
    rewrite !gather_map, (gather_four srt (rev four) Hs (Permutation_rev four)). cbn [rmap rbind]. rewrite !map_length, rev_length, Nat.eqb_refl. cbn [negb rbind].
    rewrite half_fin, decR0. unfold four. cbn [map rev app fst snd ev_m ev_t ev_c map2]. unfold ev_m, ev_c, ev_t. cbn [fst snd]. rewrite !x_sub, !x_leb.
    rewrite (proj2 (rle_false (4 - 0 / 2) 1)), (proj2 (rle_false (3 - 0 / 2) 2)), (proj2 (rle_true (2 - 0 / 2) 3)), (proj2 (rle_true (1 - 0 / 2) 4)) by lra.
    cbn [compress length Nat.eqb]. unfold ofnat. change (@ofZ xr _) with (fun z => Fin (IZR z)). cbv beta. rewrite x_div by (cbn; lra). rewrite x_ltb, (proj2 (rlt_true _ _)) by (cbn; lra).
    reflexivity.
  - assert (E : run2 srt cdf four = b_significant_1D srt cdf (MA AClassic) false (mkkw None None None None) (fun _ _ => []) (map ev_m (map fst four)) (Array (map ev_c (map fst four))) (mkdec 0 0)
      (map ev_t (map fst four)) 1 1 None true).
    { unfold run2, b_significant_1D, prepare_1D. rewrite !map_length, !Nat.eqb_refl. cbn [negb Nat.ltb Nat.leb].
      rewrite !gather_map, (gather_four srt four Hs (Permutation_refl _)). cbn [rmap rbind]. rewrite !map_map. reflexivity. }
    rewrite E. clear E.
    destruct (C36_subsamples srt cdf (MA AClassic) false (mkkw None None None None) (fun _ _ => []) (map fst four) (mkdec 0 0) 1 1 true) as [_ H]; [lia..|].
    assert (C1 : complete1 (mkdec 0 0) (map fst four) = map fst four).
    { unfold complete1, four. cbn [map fst filter]. unfold ev_c, ev_m. cbn [fst snd]. rewrite decR0, !x_sub, !x_leb, !(proj2 (rle_true _ _)) by lra. reflexivity. }
    cbv zeta in H. rewrite C1 in H. destruct (H ltac:(cbn; lia)) as (lmc & F & R). rewrite R. clear H R.
    specialize (F 0%nat ltac:(lia)). change (length (map fst four)) with 4%nat in *. rewrite starts_1 in F.
    assert (L : lmc 0%nat = map Fin [1; 2; 3; 4]).
    { repeat match goal with H : Forall2 _ (_ :: _) _ |- _ => inversion H; subst; clear H end. match goal with H : Forall2 _ [] _ |- _ => inversion H; subst end.
      repeat match goal with H : pymax _ = Ok _ |- _ => cbn in H; injection H as <- end. reflexivity. }
    cbn [mapM seq]. rewrite starts_1, L. unfold window, four. cbn [map fst skipn firstn]. unfold ev_m, ev_t. cbn [fst snd].
    unfold ac_one, values_from_partitioning. cbn [length Nat.eqb negb rbind repeat map]. unfold new_estimator. cbn [evaluate_all].
    assert (Pt : forall x e, exists e', evaluate_part srt (MA AClassic) false (mkkw None None None None) (mkdec 0 0) [] [Fin x] [Fin x] (Fin x) one (EA e) = (EA e', Ok (Fin 0, NaN, 1%nat))).
    { intros x e. unfold evaluate_part. rewrite srt_one by exact Hs. cbn [gather nth_error rbind]. unfold evaluate. cbn [kw_mref kw_b kw_dmc].
      destruct (eval_one srt x [] e Hs) as (o' & ws' & -> & V & Nn). rewrite V, Nn. cbn [rbind]. exists o'. reflexivity. }
    destruct (Pt 1 new_aobj) as (e1 & ->). cbn [rbind]. destruct (Pt 2 e1) as (e2 & ->). cbn [rbind]. destruct (Pt 3 e2) as (e3 & ->). cbn [rbind]. destruct (Pt 4 e3) as (e4 & ->).
    cbn [rbind map snd fst Nat.ltb Nat.leb count filter length].
    pose proof (run_none (map Some [0; 0; 0; 0]) None 0 ltac:(cbn; lia)) as RN. cbn [map option_map ov] in RN.
    rewrite RN by (split; [discriminate|unfold known_mean, Rsum; cbn; field]). unfold moran_result. cbn [rbind].
    set (ac := ndiv _ _). clearbody ac. cbn [rbind rmap]. unfold summary, nanmean. cbn [map fst snd filter].
    change (length (known_pairs next_neighbour [Some 0; Some 0; Some 0; Some 0])) with 3%nat. change (length (known [Some 0; Some 0; Some 0; Some 0])) with 4%nat.
    cbn [INR]. unfold ofnat. change (@ofZ xr _) with (fun z => Fin (IZR z)). cbv beta. rewrite !x_isnan; cbn [negb].
    change (Z.of_nat 4) with 4%Z.
    assert (M1 : forall x, nmean [Fin x] = Fin x) by (intros x; change [Fin x] with (map Fin [x]); rewrite x_mean by discriminate; f_equal; unfold Rsum; cbn; field).
    rewrite !M1. rewrite x_two, x_ltb, (proj2 (rlt_true _ _)) by lra. rewrite (x_div (-1) 4) by lra. eexists _, _, _. f_equal.
Qed.
Print Assumptions C37_mc_not_sorted_refuted.
Example C40_example : argsort_ok xr_argsort /\
  map p_mags [([Fin 1; Fin 2], [Fin 5; Fin 4], Fin 1, Fin 1); ([], [], Fin 1, Fin 2)] = [[Fin 1; Fin 2]; []] /\
  gather [Fin 1; Fin 2] [1; 0]%nat = Ok [Fin 2; Fin 1].
Proof. split; [exact xr_argsort_ok|]. split; reflexivity. Qed.
