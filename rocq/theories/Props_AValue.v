(** * Properties C30-C34 and C74-C75: the a-value estimators *)
From Coq Require Import ZArith List Bool String Lia Permutation Sorted Reals Lra.
From Verif Require Import Base Num XR RList StateM SortLib Spec_Binning Binning_model Binning_proofs BinTest_proofs BValue_model BValue_run
  BValue_proofs BValue_real Spec_BValue Spec_Positive Positive_proofs Props_BValue Props_BValue2 Props_Positive AValue_model AValue_proofs.
Import ListNotations.
Open Scope R_scope.

(** the sample is empty or passes the check of its binning *)
Definition a_binned_ok {T} {N : Num T} (a : @aargs T) : Prop :=
  aa_mags a = [] \/ binning_test (aa_mags a) (aa_delta a) (lit 1 15) false = Ok true.
(** the estimator can start: dmc is not negative, a b-value is given where one is needed *)
Definition a_startable {T} {N : Num T} (k : akind) (a : @aargs T) : Prop :=
  (k <> AClassic -> nltb (match aa_dmc a with Some d => d | None => dec_val (aa_delta a) end) zero = false) /\
  (k = AMorePositive -> exists b, aa_b a = Some b /\ neqb b zero = false).

Lemma a_check_ok {T} {N : Num T} (a : @aargs T) : a_binned_ok a -> check (to_b a) = Ok tt.
Proof. intros H. rewrite check_binned; [reflexivity|exact H]. Qed.
Lemma f_mags_filter {T} {N : Num T} (a : @aargs T) :
  f_mags (to_b a) = filter (fun m => nleb (nsub (aa_mc a) (ndiv (dec_val (aa_delta a)) two)) m) (aa_mags a).
Proof. unfold f_mags, keep. cbn [to_b a_mags]. apply compress_filter. Qed.

Definition calcA {T} {N : Num T} srt k w (a : @aargs T) o ws := a_calculate srt k w a (o, ws).

(** ** C30: the classic a-value *)
Lemma scaling_fin a v mc : aa_mc a = Fin mc ->
  (forall mref, aa_mref a = Some mref -> exists m, mref = Fin m) ->
  (forall b, aa_b a = Some b -> exists x, b = Fin x) ->
  (forall s, aa_scaling a = Some s -> exists x, s = Fin x /\ 0 < x) ->
  a_reference_scaling a (Fin v) =
    match aa_mref a, aa_b a with
    | Some (Fin m), Some (Fin b) => Ok (Fin (v - b * (m - mc) - match aa_scaling a with Some (Fin s) => log10 s | _ => 0 end))
    | Some _, None => Err ValueError
    | _, _ => Ok (Fin (v - match aa_scaling a with Some (Fin s) => log10 s | _ => 0 end))
    end.
Proof.
  intros Hc Hm Hb Hs. unfold a_reference_scaling. rewrite Hc.
  destruct (aa_mref a) as [mr|].
  - destruct (Hm mr eq_refl) as [m ->]. destruct (aa_b a) as [b|]; [|reflexivity]. destruct (Hb b eq_refl) as [x ->].
    rewrite x_sub, x_mul, x_sub. cbn [rbind]. destruct (aa_scaling a) as [s|].
    + destruct (Hs s eq_refl) as (y & -> & Hy). rewrite x_log10 by exact Hy. reflexivity.
    + rewrite Rminus_0_r. reflexivity.
  - cbn [rbind]. destruct (aa_scaling a) as [s|].
    + destruct (Hs s eq_refl) as (y & -> & Hy). rewrite x_log10 by exact Hy. destruct (aa_b a) as [[]|]; reflexivity.
    + rewrite Rminus_0_r. destruct (aa_b a) as [[]|]; reflexivity.
Qed.
Lemma ln10_pos : 0 < ln 10.
Proof. rewrite <- ln_1. apply ln_increasing; lra. Qed.
Lemma pow10_log10 x : 0 < x -> Rpower 10 (log10 x) = x.
Proof. intros H. unfold Rpower, log10. replace (ln x / ln 10 * ln 10) with (ln x) by (field; pose proof ln10_pos; lra). apply exp_ln. exact H. Qed.

(** arguments with real parameters; the sample may contain NaN and infinities *)
Definition real_args (ms : list xr) (mc : R) (delta : dec) (sc mref b : option R) (ts : list xr) (dmc : option R) : @aargs xr :=
  mkaargs ms (Fin mc) delta (option_map Fin sc) (option_map Fin mref) (option_map Fin b) ts (option_map Fin dmc).
(** number of magnitudes at or above mc - delta_m/2 *)
Definition n_complete (ms : list xr) (mc d : R) : nat := count (fun m => nleb (Fin (mc - d / 2)) m) ms.

Lemma f_mags_real ms mc delta sc mref b ts dmc :
  f_mags (to_b (real_args ms mc delta sc mref b ts dmc)) = filter (fun m => nleb (Fin (mc - decR delta / 2)) m) ms.
Proof. rewrite f_mags_filter. cbn [real_args aa_mc aa_delta aa_mags]. rewrite thr_fin. reflexivity. Qed.

Theorem C30_classic_formula : forall srt w ms mc delta sc mref b ts dmc o ws,
  a_binned_ok (real_args ms mc delta sc mref b ts dmc) ->
  (forall s, sc = Some s -> 0 < s) -> (mref <> None -> b <> None) ->
  let n := n_complete ms mc (decR delta) in
  (0 < n)%nat ->
  exists v o' ws', a_calculate srt AClassic w (real_args ms mc delta sc mref b ts dmc) (o, ws) = ((o', ws'), Ok (Fin v)) /\
    a_value o' = Ok (Fin v) /\ a_n o' = Ok n /\
    (* number of events above the reference magnitude per unit of the scaling factor *)
    Rpower 10 v = INR n / match sc with Some s => s | None => 1 end *
                  match mref, b with Some m, Some b => Rpower 10 (- b * (m - mc)) | _, _ => 1 end.
Proof.
  intros srt w ms mc delta sc mref b ts dmc o ws Hb Hs Hr n Hn. set (a := real_args ms mc delta sc mref b ts dmc) in *.
  pose proof (a_classic_run srt w a o ws) as R. rewrite (a_check_ok a Hb) in R. destruct R as (ws' & R). cbv zeta in R.
  assert (L : List.length (f_mags (to_b a)) = n) by (unfold a; rewrite f_mags_real; reflexivity).
  destruct (f_mags (to_b a)) as [|m0 ms0] eqn:Ef; [cbn in L; lia|]. rewrite <- Ef in R, L. rewrite L in R.
  assert (HI : 0 < INR n) by (apply lt_0_INR; exact Hn).
  rewrite x_ofnat, x_log10 in R by exact HI.
  pose proof (scaling_fin a (ln (INR n) / ln 10) mc eq_refl) as S.
  assert (S' := S ltac:(intros mr E; unfold a, real_args in E; cbn in E; destruct mref; [|discriminate]; injection E as <-; eexists; reflexivity)
             ltac:(intros mr E; unfold a, real_args in E; cbn in E; destruct b; [|discriminate]; injection E as <-; eexists; reflexivity)
             ltac:(intros s E; unfold a, real_args in E; cbn in E; destruct sc as [s'|]; [|discriminate]; injection E as <-; exists s'; split; [reflexivity|auto])).
  clear S. rewrite S' in R. clear S'.
  assert (V : exists v, match aa_mref a, aa_b a with
    | Some (Fin m), Some (Fin b) => Ok (Fin (ln (INR n) / ln 10 - b * (m - mc) - match aa_scaling a with Some (Fin s) => log10 s | _ => 0 end))
    | Some _, None => Err ValueError
    | _, _ => Ok (Fin (ln (INR n) / ln 10 - match aa_scaling a with Some (Fin s) => log10 s | _ => 0 end)) end = Ok (Fin v) /\
    Rpower 10 v = INR n / match sc with Some s => s | None => 1 end *
                  match mref, b with Some m, Some b => Rpower 10 (- b * (m - mc)) | _, _ => 1 end).
  { unfold a, real_args; cbn [aa_mref aa_b aa_scaling].
    assert (P : forall x y, Rpower 10 (x - y) = Rpower 10 x / Rpower 10 y).
    { intros x y. unfold Rminus, Rdiv. rewrite Rpower_plus, Rpower_Ropp. reflexivity. }
    assert (Q : Rpower 10 (ln (INR n) / ln 10) = INR n) by (apply pow10_log10; exact HI).
    assert (X : forall mm bb, Rpower 10 (- bb * (mm - mc)) = / Rpower 10 (bb * (mm - mc))).
    { intros. rewrite <- Rpower_Ropp. f_equal. ring. }
    destruct mref as [m|], b as [bb|]; cbn [option_map]; try (exfalso; apply Hr; [discriminate|reflexivity]); (eexists; split; [reflexivity|]);
    destruct sc as [s|]; cbn [option_map]; rewrite ?P, ?Q, ?pow10_log10, ?X by (apply Hs; reflexivity);
    try specialize (Hs s eq_refl); rewrite ?Rpower_O by lra.
    - field. split; [apply Rgt_not_eq, exp_pos|lra].
    - field. apply Rgt_not_eq, exp_pos.
    - field. lra.
    - field.
    - field. lra.
    - field. }
  destruct V as (v & V & Rv). rewrite V in R. rewrite Ef in R.
  eexists v, _, ws'. split; [exact R|]. split; [reflexivity|]. split; [|exact Rv].
  unfold a_n, a_value, omags, done; cbn [ao_a ao_mags rmap]. rewrite <- Ef, L. reflexivity.
Qed.
Print Assumptions C30_classic_formula.

(** no complete event: NaN *)
Theorem C30_no_events : forall T (N : Num T) srt w (a : @aargs T) o ws,
  a_binned_ok a -> (forall m, In m (aa_mags a) -> nleb (nsub (aa_mc a) (ndiv (dec_val (aa_delta a)) two)) m = false) ->
  exists o' ws', a_calculate srt AClassic w a (o, ws) = ((o', ws'), Ok nnan) /\ a_value o' = Ok nnan /\ a_n o' = Ok 0%nat.
Proof.
  intros T N srt w a o ws Hb Hm. pose proof (a_classic_run srt w a o ws) as R. rewrite (a_check_ok a Hb) in R. destruct R as (ws' & R). cbv zeta in R.
  assert (E : f_mags (to_b a) = []).
  { rewrite f_mags_filter. induction (aa_mags a) as [|m l IH]; [reflexivity|]. cbn [filter]. rewrite Hm by (left; reflexivity). apply IH.
    intros; apply Hm; right; assumption. }
  rewrite E in R. eexists _, ws'. split; [exact R|]. split; reflexivity.
Qed.
Print Assumptions C30_no_events.
(** a reference magnitude without b-value raises *)
Theorem C30_missing_b : forall T (N : Num T) srt w (a : @aargs T) o ws,
  a_binned_ok a -> (exists m, In m (aa_mags a) /\ nleb (nsub (aa_mc a) (ndiv (dec_val (aa_delta a)) two)) m = true) ->
  aa_mref a <> None -> aa_b a = None ->
  snd (a_calculate srt AClassic w a (o, ws)) = Err ValueError.
Proof.
  intros T N srt w a o ws Hb (m & Hm & Lm) Hr Hn. pose proof (a_classic_run srt w a o ws) as R. rewrite (a_check_ok a Hb) in R. destruct R as (ws' & ->). cbv zeta.
  assert (E : In m (f_mags (to_b a))) by (rewrite f_mags_filter; apply filter_In; split; assumption).
  destruct (f_mags (to_b a)) as [|x l]; [destruct E|].
  unfold a_reference_scaling. rewrite Hn. destruct (aa_mref a); [|congruence]. reflexivity.
Qed.
Print Assumptions C30_missing_b.
(** a sample that fails the check of its binning raises, for every estimator, and does not
    touch the stored a-value *)
Theorem C30_not_binned : forall T (N : Num T) srt k w (a : @aargs T) o ws,
  a_startable k a -> aa_mags a <> [] -> binning_test (aa_mags a) (aa_delta a) (lit 1 15) false = Ok false ->
  exists s', a_calculate srt k w a (o, ws) = (s', Err ValueError) /\ a_value (fst s') = a_value o.
Proof.
  intros T N srt k w a o ws [Hd Hb] Hne Ht.
  assert (C : check (to_b a) = Err ValueError).
  { unfold check. cbn [to_b a_mags a_delta a_weights]. destruct (aa_mags a) as [|x l]; [congruence|]. rewrite Ht. reflexivity. }
  destruct (a_check_fails srt k w a o ws ValueError) as (s' & E & A); [|exact C|exists s'; split; [exact E|unfold a_value; rewrite A; reflexivity]].
  intros Hk. split; [apply Hd; destruct k; discriminate|]. destruct k; cbn; trivial. destruct (Hb eq_refl) as (b & -> & Hz). exact Hz.
Qed.
Print Assumptions C30_not_binned.
(** scaling factors that are not positive: infinity for zero, NaN for negative ones *)
Theorem C30_bad_scaling : forall srt w ms mc delta s ts dmc o ws,
  a_binned_ok (real_args ms mc delta (Some s) None None ts dmc) -> (0 < n_complete ms mc (decR delta))%nat ->
  (s = 0 -> snd (a_calculate srt AClassic w (real_args ms mc delta (Some s) None None ts dmc) (o, ws)) = Ok PInf) /\
  (s < 0 -> snd (a_calculate srt AClassic w (real_args ms mc delta (Some s) None None ts dmc) (o, ws)) = Ok NaN).
Proof.
  intros srt w ms mc delta s ts dmc o ws Hb Hn. set (a := real_args ms mc delta (Some s) None None ts dmc) in *.
  pose proof (a_classic_run srt w a o ws) as R. rewrite (a_check_ok a Hb) in R. destruct R as (ws' & ->). cbv zeta.
  assert (L : List.length (f_mags (to_b a)) = n_complete ms mc (decR delta)) by (unfold a; rewrite f_mags_real; reflexivity).
  destruct (f_mags (to_b a)) as [|m0 ms0]; [cbn in L; lia|]. rewrite L, x_ofnat, x_log10 by (apply lt_0_INR; exact Hn).
  unfold a_reference_scaling, a, real_args; cbn [aa_mref aa_scaling option_map rbind].
  split; intros Hs; cbn [nlog10 XR xlog10].
  - subst s. destruct (Rlt_dec 0 0); [lra|]. destruct (Req_EM_T 0 0); [reflexivity|congruence].
  - destruct (Rlt_dec 0 s); [lra|]. destruct (Req_EM_T s 0); [lra|]. reflexivity.
Qed.
Print Assumptions C30_bad_scaling.

Definition ex30 (mref b : option R) : @aargs xr := real_args [Fin 2; Fin 3; Fin 1; NaN; Fin 0] 1 (mkdec 1 0) (Some 2) mref b [] None.
Lemma ex30_binned mref b : a_binned_ok (ex30 mref b).
Proof.
  right. unfold ex30, real_args; cbn [aa_mags aa_delta].
  rewrite x_lit, (binning_test_values [Fin 2; Fin 3; Fin 1; NaN; Fin 0] [Fin 2; Fin 3; Fin 1; Fin 0] 0).
  - pose proof (check_grid [2; 3; 1; 0] 0 (mkdec 1 0) 0) as K. rewrite check_u in K. cbn [map] in K.
    change (IZR 1 / IZR (10 ^ Z.of_nat 15)) with tol15.
    assert (K' : (let? b := binning_test [Fin 2; Fin 3; Fin 1; Fin 0] (mkdec 1 0) (Fin tol15) false in if b then Ok tt else Err ValueError) = Ok tt).
    { apply K; rewrite decR1; [unfold epsR; simpl; lra|]. intros m [<-|[<-|[<-|[<-|[]]]]]; [exists 2%Z|exists 3%Z|exists 1%Z|exists 0%Z]; simpl; lra. }
    destruct (binning_test _ _ _ _) as [[]|]; [reflexivity|discriminate K'|discriminate K'].
  - intros v H; cbn in H; repeat (destruct H as [<-|H]; [split; discriminate|]); destruct H.
  - intros v H; cbn in H; repeat (destruct H as [<-|H]; [split; discriminate|]); destruct H.
  - intros v. cbn [fins]. replace (v + 0) with v by ring. tauto.
Qed.
Example C30_example : (0 < n_complete (aa_mags (ex30 None None)) 1 (decR (mkdec 1 0)))%nat /\ a_binned_ok (ex30 (Some 4) None).
Proof.
  split; [|apply ex30_binned]. unfold n_complete, count, ex30, real_args; cbn [aa_mags filter].
  rewrite !x_leb, (proj2 (rle_true (1 - decR (mkdec 1 0) / 2) 2)) by (rewrite decR1; lra). cbn [List.length]. lia.
Qed.

Lemma Forall2_len {A B} {P : A -> B -> Prop} {l l'} : Forall2 P l l' -> List.length l = List.length l'.
Proof. induction 1; cbn; congruence. Qed.
(** ** C31: kept events, idx and times stay consistent *)
Theorem C31_classic : forall T (N : Num T) srt w (a : @aargs T) o ws o' ws' v,
  a_calculate srt AClassic w a (o, ws) = ((o', ws'), Ok v) ->
  exists idx ms, ao_idx o' = Some idx /\ ao_mags o' = Some ms /\
    picks (fun m => nleb (nsub (aa_mc a) (ndiv (dec_val (aa_delta a)) two)) m = true) (aa_mags a) idx ms /\
    a_n o' = Ok (List.length idx) /\ a_value o' = Ok v.
Proof.
  intros T N srt w a o ws o' ws' v C. pose proof (a_classic_run srt w a o ws) as R. rewrite C in R.
  destruct (check (to_b a)) as [[]|e]; [|destruct R as (s & R & _); discriminate].
  destruct R as (ws1 & R). cbv zeta in R. exists (f_idx (to_b a)), (f_mags (to_b a)).
  assert (D : exists v', o' = done a AClassic o (f_mags (to_b a)) (f_idx (to_b a)) [] v' /\ v' = v).
  { destruct (f_mags (to_b a)) as [|m0 l0]; [injection R as -> _ ->; eexists; split; reflexivity|].
    destruct (a_reference_scaling a _) as [v'|]; [|discriminate]. injection R as -> _ ->. eexists; split; reflexivity. }
  destruct D as (v' & -> & ->). split; [reflexivity|]. split; [reflexivity|]. pose proof (picks_keep (to_b a)) as P. split; [exact P|].
  split; [|reflexivity]. unfold a_n, a_value, omags, done; cbn [ao_a ao_mags rmap]. f_equal.
  destruct P as (_ & _ & F). symmetry. apply (Forall2_len F).
Qed.
Print Assumptions C31_classic.

Lemma a_pos_starts {T} {N : Num T} srt k w (a : @aargs T) o ws s' v : apos k = true -> a_calculate srt k w a (o, ws) = (s', Ok v) ->
  a_dmc_ok a /\ b_ok k a /\ check (to_b a) = Ok tt.
Proof.
  intros Hk C. destruct (prefix_run srt k w a o ws Hk) as (_ & P2 & P3).
  assert (Hb : b_ok k a).
  { unfold b_ok in *. destruct k; trivial. destruct (falsy (aa_b a)) eqn:E; [|reflexivity]. rewrite P2 in C by discriminate. discriminate. }
  assert (Hd : a_dmc_ok a).
  { unfold a_dmc_ok in *. destruct (nltb (the_dmc (to_b a)) zero) eqn:E; [|reflexivity]. rewrite P3 in C; [discriminate|exact Hb|discriminate]. }
  split; [exact Hd|]. split; [exact Hb|]. destruct (check (to_b a)) as [[]|e] eqn:Ec; [reflexivity|].
  destruct (a_check_fails srt k w a o ws e) as (s1 & C1 & _); [intros _; split; assumption|exact Ec|]. rewrite C in C1. discriminate.
Qed.

Section Consistent.
  Context {T : Type} {N : Num T}.
  (** the events of the catalogue by position *)
  Definition magn (a : @aargs T) (i : nat) : T := nth i (aa_mags a) nnan.
  Definition time (a : @aargs T) (i : nat) : T := nth i (aa_times a) nnan.
  Definition larger (a : @aargs T) (i j : nat) : bool :=
    let d := dec_val (aa_delta a) in
    let dmc := match aa_dmc a with Some x => x | None => d end in
    nleb (nsub dmc (ndiv d two)) (nsub (magn a j) (magn a i)).
  Definition a_time_order (a : @aargs T) (order : list nat) : Prop :=
    time_order (aa_mags a) (nsub (aa_mc a) (ndiv (dec_val (aa_delta a)) two)) (Some (aa_times a)) order.
End Consistent.

Theorem C31_positive : forall T (N : Num T) srt w (a : @aargs T) o ws o' ws' v,
  argsort_ok srt -> List.length (aa_times a) = List.length (aa_mags a) ->
  a_calculate srt APositive w a (o, ws) = ((o', ws'), Ok v) ->
  exists order, a_time_order a order /\
    let used := filter (fun p => larger a (fst p) (snd p)) (consecutive order) in
    ao_idx o' = Some (map snd used) /\
    ao_mags o' = Some (map (fun p => magn a (snd p)) used) /\
    (used <> [] -> ao_times o' = Some (map (fun p => time a (snd p)) used)) /\
    a_n o' = Ok (List.length used) /\ a_value o' = Ok v.
Proof.
  intros T N srt w a o ws o' ws' v Hs Ht C. destruct (a_pos_starts srt APositive w a o ws _ v eq_refl C) as (Hd & _ & Hc).
  destruct (a_positive_run srt Hs a Ht Hd Hc) as (order & To & Po & R). destruct (R w o ws) as (ws1 & R1). clear R. rename R1 into R. rewrite C in R. exists order. split; [exact To|]. cbv zeta.
  change (filter (fun p => larger a (fst p) (snd p)) (consecutive order)) with (pos_pairs (to_b a) order).
  destruct order as [|i order].
  - injection R as -> _ ->. cbn. repeat split; congruence.
  - unfold result in R. destruct (a_reference_scaling a _) as [v'|]; [|discriminate]. injection R as -> _ ->.
    unfold a_n, a_value, omags, done; cbn [ao_a ao_mags ao_idx ao_times apos rmap]. rewrite map_length.
    split; [reflexivity|]. split; [reflexivity|]. split; [|split; reflexivity].
    intros Hne. unfold pos_times. destruct (pos_pairs (to_b a) (i :: order)); [congruence|reflexivity].
Qed.
Print Assumptions C31_positive.

Theorem C31_more_positive : forall T (N : Num T) srt w (a : @aargs T) o ws o' ws' v,
  argsort_ok srt -> List.length (aa_times a) = List.length (aa_mags a) ->
  a_calculate srt AMorePositive w a (o, ws) = ((o', ws'), Ok v) ->
  exists order, a_time_order a order /\
    let used := next_pairs (larger a) order in
    ao_idx o' = Some (map snd used) /\
    ao_mags o' = Some (map (fun p => magn a (snd p)) used) /\
    ao_times o' = Some (map (fun p => time a (snd p)) used) /\
    a_n o' = Ok (List.length used) /\ a_value o' = Ok v.
Proof.
  intros T N srt w a o ws o' ws' v Hs Ht C. destruct (a_pos_starts srt AMorePositive w a o ws _ v eq_refl C) as (Hd & Hb & Hc).
  unfold b_ok, falsy in Hb. destruct (aa_b a) as [b|] eqn:Eb; [|discriminate].
  destruct (a_more_run srt Hs a b Ht Hd Eb Hb Hc) as (order & To & Po & R). destruct (R w o ws) as (ws1 & R1). clear R. rename R1 into R. rewrite C in R. exists order. split; [exact To|]. cbv zeta in R |- *.
  change (next_pairs (larger a) order) with (next_pairs (far (to_b a)) order).
  destruct order as [|i order].
  - injection R as -> _ ->. cbn. repeat split; congruence.
  - unfold result in R. destruct (a_reference_scaling a _) as [v'|]; [|discriminate]. injection R as -> _ ->.
    unfold a_n, a_value, omags, done; cbn [ao_a ao_mags ao_idx ao_times apos rmap]. rewrite map_length. repeat split.
Qed.
Print Assumptions C31_more_positive.

(** ** C34: APositive on a catalogue with no qualifying difference *)
Definition a_no_difference {T} {N : Num T} (a : @aargs T) : Prop :=
  forall order, a_time_order a order -> forall i j, In (i, j) (consecutive order) -> larger a i j = false.
Lemma a_no_pairs {T} {N : Num T} (a : @aargs T) order : a_no_difference a -> a_time_order a order -> pos_pairs (to_b a) order = [].
Proof.
  intros H To. destruct (pos_pairs (to_b a) order) as [|[i j] l] eqn:E; [reflexivity|]. exfalso.
  assert (Hin : In (i, j) (pos_pairs (to_b a) order)) by (rewrite E; left; reflexivity).
  apply filter_In in Hin. destruct Hin as [Hin F]. specialize (H order To i j Hin). cbn [fst snd] in F.
  change (far (to_b a) i j) with (larger a i j) in F. congruence.
Qed.
Lemma scaling_nan a mc : aa_mc a = Fin mc -> (aa_mref a <> None -> aa_b a <> None) -> a_reference_scaling a NaN = Ok NaN.
Proof.
  intros Hc Hr. unfold a_reference_scaling. destruct (aa_mref a); [destruct (aa_b a); [|exfalso; apply Hr; [discriminate|reflexivity]]|];
  cbn [rbind]; destruct (aa_scaling a); reflexivity.
Qed.
Theorem C34_nan_and_empty : forall srt w (a : @aargs xr) mc o ws,
  argsort_ok srt -> List.length (aa_times a) = List.length (aa_mags a) -> a_binned_ok a -> a_startable APositive a ->
  aa_mc a = Fin mc -> (aa_mref a <> None -> aa_b a <> None) -> a_no_difference a ->
  exists o' ws', a_calculate srt APositive w a (o, ws) = ((o', ws'), Ok NaN) /\
    a_value o' = Ok NaN /\ a_n o' = Ok 0%nat /\ ao_mags o' = Some [] /\ ao_idx o' = Some [].
Proof.
  intros srt w a mc o ws Hs Ht Hb [Hd _] Hc Hr Hno.
  destruct (a_positive_run srt Hs a Ht (Hd ltac:(discriminate)) (a_check_ok a Hb)) as (order & To & Po & R). destruct (R w o ws) as (ws1 & R1). clear R. rename R1 into R.
  rewrite R. clear R. unfold result, pos_value, pos_times. rewrite (a_no_pairs a order Hno To). cbn [map]. change nnan with NaN. rewrite (scaling_nan a mc Hc Hr).
  destruct order; (eexists _, ws1; split; [reflexivity|]; repeat split).
Qed.
Print Assumptions C34_nan_and_empty.
(** the property is false for the times: they are those of all complete events *)
Theorem C80_times_not_emptied_refuted : forall srt w (a : @aargs xr) mc o ws,
  argsort_ok srt -> List.length (aa_times a) = List.length (aa_mags a) -> a_binned_ok a -> a_startable APositive a ->
  aa_mc a = Fin mc -> (aa_mref a <> None -> aa_b a <> None) -> a_no_difference a ->
  (exists m, In m (aa_mags a) /\ nleb (nsub (aa_mc a) (ndiv (dec_val (aa_delta a)) two)) m = true) ->
  exists o' ws' order, a_calculate srt APositive w a (o, ws) = ((o', ws'), Ok NaN) /\
    a_time_order a order /\ order <> [] /\ ao_times o' = Some (map (time a) order) /\ ao_mags o' = Some [].
Proof.
  intros srt w a mc o ws Hs Ht Hb [Hd _] Hc Hr Hno (m & Hm & Lm).
  destruct (a_positive_run srt Hs a Ht (Hd ltac:(discriminate)) (a_check_ok a Hb)) as (order & To & Po & R). destruct (R w o ws) as (ws1 & R1). clear R. rename R1 into R.
  assert (Hne : order <> []).
  { intros ->. apply In_nth_error in Hm. destruct Hm as [q Hq]. destruct To as (_ & I & _). assert (F : In q []) by (apply I; exists m; split; assumption). destruct F. }
  rewrite R. clear R. unfold result, pos_value, pos_times. rewrite (a_no_pairs a order Hno To). cbn [map]. change nnan with NaN. rewrite (scaling_nan a mc Hc Hr).
  destruct order as [|i order]; [congruence|]. eexists _, ws1, (i :: order). split; [reflexivity|]. repeat split; try apply To. exact Hne.
Qed.
Print Assumptions C80_times_not_emptied_refuted.
Definition ex34 : @aargs xr := mkaargs [Fin 3; Fin 2; Fin 1] (Fin 0) (mkdec 1 0) None None None [Fin 1; Fin 2; Fin 3] None.
Example C34_example : a_no_difference ex34 /\ a_binned_ok ex34 /\ a_startable APositive ex34.
Proof.
  assert (B := ex21_binned None). split; [|split].
  - intros order (Nd & Hi & S) i j Hin. unfold ex34 in *; cbn [aa_mags aa_mc aa_delta aa_times aa_dmc] in *.
    assert (L3 : forall q, In q order -> (q < 3)%nat).
    { intros q Hq. apply Hi in Hq. destruct Hq as (m & E & _). change 3%nat with (List.length [Fin 3; Fin 2; Fin 1]). apply nth_error_Some. rewrite E. discriminate. }
    assert (L : (i < j)%nat).
    { assert (Li := L3 i (proj1 (consecutive_in order (i, j) Hin))). assert (Lj := L3 j (proj2 (consecutive_in order (i, j) Hin))).
      assert (NE : i <> j /\ not_later [Fin 1; Fin 2; Fin 3] i j).
      { clear - Nd S Hin. unfold consecutive in Hin. induction S as [|x l S IH F]; [destruct Hin|].
        destruct l as [|y l]; [destruct Hin|]. cbn [tl combine] in Hin. inversion Nd; subst. destruct Hin as [E|Hin]; [|apply IH; assumption].
        injection E as <- <-. inversion F; subst. split; [|assumption]. intros ->. apply H1. left; reflexivity. }
      destruct NE as [NE NL]. unfold not_later in NL.
      destruct i as [|[|[|i]]]; destruct j as [|[|[|j]]]; try lia; exfalso; specialize (NL _ _ eq_refl eq_refl); cbn in NL; apply rle_true in NL; lra. }
    assert (Lj := L3 j (proj2 (consecutive_in order (i, j) Hin))).
    unfold larger, magn; cbn [aa_mags aa_delta aa_dmc]. rewrite x_dec_val, x_two, x_div, decR1 by lra.
    destruct i as [|[|[|i]]]; destruct j as [|[|[|j]]]; try lia; cbn [nth]; rewrite x_sub, x_sub, x_leb; apply rle_false; lra.
  - exact B.
  - split; [|discriminate]. intros _. cbn [ex34 aa_dmc aa_delta]. rewrite x_dec_val, decR1, x_zero, x_ltb. apply rlt_false. lra.
Qed.

(** ** C74: no memory of earlier calls *)
(** result and attributes do not depend on what the object was used for before, nor on the
    warnings option (an estimator object of one class) *)
Theorem C74_history_independent : forall T (N : Num T) srt k w1 w2 (a : @aargs T) o1 ws1 o2 ws2,
  argsort_ok srt -> (k <> AClassic -> List.length (aa_times a) = List.length (aa_mags a)) ->
  (k = AClassic -> ao_times o1 = ao_times o2 /\ ao_dmc o1 = ao_dmc o2) ->
  let '(s1, r1) := a_calculate srt k w1 a (o1, ws1) in
  let '(s2, r2) := a_calculate srt k w2 a (o2, ws2) in
  r1 = r2 /\ (forall v, r1 = Ok v -> fst s1 = fst s2).
Proof.
  intros T N srt k w1 w2 a o1 ws1 o2 ws2 Hs Ht Hk.
  assert (B : forall b : bool, b = true \/ b = false) by (intros []; auto).
  destruct (apos k) eqn:Ek.
  - destruct (prefix_run srt k w1 a o1 ws1 Ek) as (P1 & P2 & P3). destruct (prefix_run srt k w2 a o2 ws2 Ek) as (Q1 & Q2 & Q3).
    assert (Hb : b_ok k a \/ ~ b_ok k a) by (unfold b_ok; destruct k; auto; destruct (falsy (aa_b a)); [right; discriminate|left; reflexivity]).
    destruct Hb as [Hb|Hb]; [|rewrite P2, Q2 by exact Hb; split; [reflexivity|discriminate]].
    destruct (B (nltb (the_dmc (to_b a)) zero)) as [Ed|Hd].
    { rewrite P3, Q3 by (first [exact Hb | unfold a_dmc_ok; intros HH; rewrite Ed in HH; discriminate HH]). split; [reflexivity|discriminate]. }
    clear P1 P2 P3 Q1 Q2 Q3.
    destruct (check (to_b a)) as [[]|e] eqn:Ec.
    2:{ destruct (a_check_fails srt k w1 a o1 ws1 e) as (s1 & C1 & _); [intros _; split; assumption|exact Ec|].
        destruct (a_check_fails srt k w2 a o2 ws2 e) as (s2 & C2 & _); [intros _; split; assumption|exact Ec|].
        rewrite C1, C2. split; [reflexivity|discriminate]. }
    destruct k; [discriminate| |].
    + destruct (a_positive_run srt Hs a (Ht ltac:(discriminate)) Hd Ec) as (order & _ & _ & R).
      destruct (R w1 o1 ws1) as (x1 & R1). destruct (R w2 o2 ws2) as (x2 & R2). rewrite R1, R2.
      destruct order; [split; [reflexivity|intros; reflexivity]|]. unfold result.
      destruct (a_reference_scaling a _); (split; [reflexivity|intros; reflexivity || discriminate]).
    + unfold b_ok, falsy in Hb. destruct (aa_b a) as [b|] eqn:Eb; [|discriminate].
      destruct (a_more_run srt Hs a b (Ht ltac:(discriminate)) Hd Eb Hb Ec) as (order & _ & _ & R).
      destruct (R w1 o1 ws1) as (x1 & R1). destruct (R w2 o2 ws2) as (x2 & R2). rewrite R1, R2.
      destruct order; [split; [reflexivity|intros; reflexivity]|]. unfold result. cbv zeta.
      destruct (a_reference_scaling a _); (split; [reflexivity|intros; reflexivity || discriminate]).
  - destruct k; try discriminate. destruct (Hk eq_refl) as [K1 K2].
    pose proof (a_classic_run srt w1 a o1 ws1) as R1. pose proof (a_classic_run srt w2 a o2 ws2) as R2.
    destruct (check (to_b a)) as [[]|e].
    + destruct R1 as (x1 & ->), R2 as (x2 & ->). cbv zeta.
      assert (D : forall ms ix v, done a AClassic o1 ms ix [] v = done a AClassic o2 ms ix [] v) by (intros; unfold done; rewrite K1, K2; reflexivity).
      destruct (f_mags (to_b a)); [split; [reflexivity|intros; apply D]|].
      destruct (a_reference_scaling a _); (split; [reflexivity|intros; apply D || discriminate]).
    + destruct R1 as (x1 & -> & _), R2 as (x2 & -> & _). split; [reflexivity|discriminate].
Qed.
Print Assumptions C74_history_independent.

(** ** C75: a failed call and the stored a-value *)
(** a call that fails because no b-value was given for the reference magnitude has already
    replaced the stored a-value by the a-value at mc: the property is false *)
Theorem C83_failed_call_overwrites_refuted : forall T (N : Num T) srt w (a : @aargs T) o ws,
  a_binned_ok a -> (exists m, In m (aa_mags a) /\ nleb (nsub (aa_mc a) (ndiv (dec_val (aa_delta a)) two)) m = true) ->
  aa_mref a <> None -> aa_b a = None ->
  exists o' ws', a_calculate srt AClassic w a (o, ws) = ((o', ws'), Err ValueError) /\
    a_value o' = Ok (nlog10 (ofnat (count (fun m => nleb (nsub (aa_mc a) (ndiv (dec_val (aa_delta a)) two)) m) (aa_mags a)))).
Proof.
  intros T N srt w a o ws Hb (m & Hm & Lm) Hr Hn. pose proof (a_classic_run srt w a o ws) as R. rewrite (a_check_ok a Hb) in R. destruct R as (ws' & ->). cbv zeta.
  assert (E : In m (f_mags (to_b a))) by (rewrite f_mags_filter; apply filter_In; split; assumption).
  destruct (f_mags (to_b a)) as [|x l] eqn:Ef; [destruct E|]. rewrite <- Ef.
  unfold a_reference_scaling. rewrite Hn. destruct (aa_mref a); [|congruence]. cbn [rbind].
  eexists _, ws'. split; [reflexivity|]. cbn [a_value done ao_a]. rewrite f_mags_filter. reflexivity.
Qed.
Print Assumptions C83_failed_call_overwrites_refuted.
(** every other failure leaves the stored a-value alone *)
Theorem C75_failed_call_keeps_a_value : forall T (N : Num T) srt k w (a : @aargs T) o ws s' e,
  argsort_ok srt -> (k <> AClassic -> List.length (aa_times a) = List.length (aa_mags a)) ->
  (aa_mref a <> None -> aa_b a <> None) ->
  a_calculate srt k w a (o, ws) = (s', Err e) -> a_value (fst s') = a_value o.
Proof.
  intros T N srt k w a o ws s' e Hs Ht Hr C.
  assert (B : forall b : bool, b = true \/ b = false) by (intros []; auto).
  assert (Sc : forall v, exists v', a_reference_scaling a v = Ok v').
  { intros v. unfold a_reference_scaling. destruct (aa_mref a); [destruct (aa_b a); [|exfalso; apply Hr; [discriminate|reflexivity]]|]; cbn [rbind];
    destruct (aa_scaling a); eexists; reflexivity. }
  destruct (apos k) eqn:Ek.
  - destruct (prefix_run srt k w a o ws Ek) as (P1 & P2 & P3).
    assert (Hb : b_ok k a \/ ~ b_ok k a) by (unfold b_ok; destruct k; auto; destruct (falsy (aa_b a)); [right; discriminate|left; reflexivity]).
    destruct Hb as [Hb|Hb]; [|rewrite P2 in C by exact Hb; injection C as <- _; reflexivity].
    destruct (B (nltb (the_dmc (to_b a)) zero)) as [Ed|Hd].
    { rewrite P3 in C by (first [exact Hb | unfold a_dmc_ok; intros HH; rewrite Ed in HH; discriminate HH]). injection C as <- _. reflexivity. }
    destruct (check (to_b a)) as [[]|e'] eqn:Ec.
    2:{ destruct (a_check_fails srt k w a o ws e') as (s1 & C1 & A1); [intros _; split; assumption|exact Ec|].
        rewrite C in C1. injection C1 as <- _. unfold a_value. rewrite A1. reflexivity. }
    exfalso. destruct k; [discriminate| |].
    + destruct (a_positive_run srt Hs a (Ht ltac:(discriminate)) Hd Ec) as (order & _ & _ & R).
      destruct (R w o ws) as (x1 & R1). rewrite C in R1. unfold result in R1.
      destruct order as [|i0 order]; [discriminate|]. destruct (Sc (pos_value a (i0 :: order))) as (v' & E'). rewrite E' in R1. discriminate.
    + unfold b_ok, falsy in Hb. destruct (aa_b a) as [b|] eqn:Eb; [|discriminate].
      destruct (a_more_run srt Hs a b (Ht ltac:(discriminate)) Hd Eb Hb Ec) as (order & _ & _ & R).
      destruct (R w o ws) as (x1 & R1). rewrite C in R1. unfold result in R1. cbv zeta in R1.
      destruct order as [|i0 order]; [discriminate|]. destruct (Sc (more_value a b (i0 :: order))) as (v' & E'). rewrite E' in R1. discriminate.
  - destruct k; try discriminate. pose proof (a_classic_run srt w a o ws) as R1. rewrite C in R1.
    destruct (check (to_b a)) as [[]|e'].
    + exfalso. destruct R1 as (x1 & R1). cbv zeta in R1. destruct (f_mags (to_b a)); [discriminate|].
      destruct (Sc (nlog10 (ofnat (List.length (t :: l))))) as (v' & E'). rewrite E' in R1. discriminate.
    + destruct R1 as (s1 & R1 & A1). injection R1 as <- _. unfold a_value. rewrite A1. reflexivity.
Qed.
Print Assumptions C75_failed_call_keeps_a_value.
