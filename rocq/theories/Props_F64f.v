(** * C222: the accuracy of the a-value in IEEE double precision *)
From Coq Require Import ZArith List Bool Reals Lia Lra Psatz Permutation Sorted String.
From Flocq Require Import Core.
From Verif Require Import Base Num XR RList SortLib StateM Binning_model BValue_model BValue_run Spec_BValue BValue_proofs Props_BValue Props_BValue2
  Spec_Positive Positive_proofs Props_Positive Openquake_model F64 Spec_F64 F64_proofs F64_test F64_select F64_fmd Props_F64 Props_F64b F64_acc F64_est AValue_model AValue_proofs.
Import ListNotations.
Open Scope R_scope.

(** np.log10 of a positive double has a relative error of at most 2^-51, or an error of 10^-30 *)
Definition log10_accurate (L : libm) : Prop := forall x, 0 < x < maxfin -> rnd x = x ->
  exists y, l_log10 L (Fin x) = Fin y /\ Rabs (y - ln x / ln 10) <= Rabs (ln x / ln 10) / 2251799813685248 + / 1000000000000000000000000000000.

(** the sample, with reference magnitude and scaling factor *)
Definition a_args_at (j : Z) (d : nat) (ks : list Z) (kc : Z) (kref : option Z) (b s : option R) : @aargs xr :=
  mkaargs (mags_at j d ks) (Fin (decimal j d kc)) (width j d) (option_map Fin s) (option_map (fun k => Fin (decimal j d k)) kref) (option_map Fin b) [] None.
(** the a-value in exact arithmetic, of the decimal magnitudes *)
Definition exact_a (delta : R) (n : nat) (kc : Z) (kref : option Z) (b s : option R) : R :=
  ln (INR n) / ln 10 - match kref, b with Some k, Some b => b * (IZR (k - kc) * delta) | _, _ => 0 end - match s with Some s => ln s / ln 10 | None => 0 end.

Lemma ln_pow10 n : ln (10 ^ n) = INR n * ln 10.
Proof. induction n as [|n IH]; [cbn; rewrite ln_1; lra|]. cbn [pow]. rewrite ln_mult by (lra || (apply pow_lt; lra)). rewrite IH, S_INR. lra. Qed.
Lemma ln10_gt : 0 < ln 10.
Proof. rewrite <- ln_1. apply ln_increasing; lra. Qed.
Lemma log10_bounds x n : / 10 ^ n <= x <= 10 ^ n -> Rabs (ln x / ln 10) <= INR n.
Proof.
  intros [A B]. pose proof ln10_gt as P. assert (P10 : 0 < 10 ^ n) by (apply pow_lt; lra). assert (Q : 0 < / 10 ^ n) by (apply Rinv_0_lt_compat; exact P10).
  assert (U : ln x <= INR n * ln 10) by (rewrite <- ln_pow10; apply ln_mono; lra).
  assert (D : - (INR n * ln 10) <= ln x) by (rewrite <- ln_pow10, <- ln_Rinv by exact P10; apply ln_mono; lra).
  apply Rabs_le. split.
  - apply Rmult_le_reg_r with (ln 10); [exact P|]. unfold Rdiv. rewrite Rmult_assoc, Rinv_l by lra. lra.
  - apply Rmult_le_reg_r with (ln 10); [exact P|]. unfold Rdiv. rewrite Rmult_assoc, Rinv_l by lra. lra.
Qed.
Lemma f_mags_a (L : libm) j d ks kc (a : @aargs xr) : usual_width j d -> (forall i, In i ks -> below8 j d i) -> moderate j d kc ->
  aa_mags a = mags_at j d ks -> aa_mc a = Fin (decimal j d kc) -> aa_delta a = width j d -> @f_mags xr (F64 L) (@to_b xr a) = mags_at j d (filter (Z.leb kc) ks).
Proof.
  intros W B C E1 E2 E3. unfold f_mags, keep, thr, to_b. cbn [a_mags a_mc a_delta]. rewrite E1, E2, E3. unfold mags_at. clear - W B C.
  induction ks as [|k ks IH]; [reflexivity|]. cbn [map filter compress].
  pose proof (select L j d W kc k C (below8_ok j d k (B k (or_introl eq_refl)))) as S. unfold FI6 in S. rewrite S.
  rewrite IH by (intros; apply B; right; assumption). destruct (kc <=? k)%Z; reflexivity.
Qed.
(** the difference of two decimals *)
Lemma difference_err L j d K K0 : usual_width j d -> moderate j d K -> moderate j d K0 -> exists x,
  @nsub xr (F64 L) (Fin (decimal j d K)) (Fin (decimal j d K0)) = Fin x /\ Rabs (x - IZR (K - K0) * widthR j d) <= 402 * u /\ Rabs x <= 201.
Proof.
  intros W H H0. pose proof (dec_err j d K) as E. pose proof (dec_err j d K0) as E0. unfold moderate in H, H0. set (w := widthR j d) in *.
  assert (B : Rabs (IZR K * w) * u <= 100 * u) by (apply Rmult_le_compat_r; [unfold u; lra|exact H]).
  assert (B0 : Rabs (IZR K0 * w) * u <= 100 * u) by (apply Rmult_le_compat_r; [unfold u; lra|exact H0]).
  apply Rabs_le_inv in E, E0, H, H0. pose proof u_val as U. unfold h in *.
  rewrite f_sub by (unfold big; apply Rabs_le; lra).
  set (D := decimal j d K - decimal j d K0) in *.
  pose proof (rnd_err_le D 201 ltac:(unfold D; apply Rabs_le; lra)) as R. apply Rabs_le_inv in R. unfold h in R.
  eexists. split; [reflexivity|]. rewrite minus_IZR. unfold D in *. unfold u in *. split; apply Rabs_le; lra.
Qed.

Section Acc.
  Context (L : libm) (j : Z) (d : nat) (W : usual_width j d) (H10 : log10_accurate L).
  Let w := widthR j d.
  Lemma log10_count n : (1 <= Z.of_nat n <= 2 ^ 40)%Z -> exists y, @nlog10 xr (F64 L) (@ofnat xr (F64 L) n) = Fin y /\
    Rabs (y - ln (INR n) / ln 10) <= ln (INR n) / ln 10 / 2251799813685248 + / 1000000000000000000000000000000 /\ 0 <= ln (INR n) / ln 10 <= 13.
  Proof.
    intros Hn. unfold ofnat. rewrite f_ofZ by lia. change (@nlog10 xr (F64 L)) with (l_log10 L).
    assert (E : INR n = IZR (Z.of_nat n)) by apply INR_IZR_INZ.
    assert (N1 : 1 <= INR n) by (rewrite E; apply IZR_le; lia). assert (N2 : INR n <= 1099511627776) by (rewrite E; change 1099511627776 with (IZR (2 ^ 40)); apply IZR_le; lia).
    destruct (H10 (INR n)) as (y & Ey & Hy).
    - split; [lra|]. unfold maxfin. apply Rle_lt_trans with (bpow radix2 50); [cbn; lra|apply bpow_lt; lia].
    - rewrite E. apply rnd_int. lia.
    - rewrite <- E. exists y. split; [exact Ey|].
      assert (0 <= ln (INR n) / ln 10).
      { unfold Rdiv. apply Rmult_le_pos; [rewrite <- ln_1; apply ln_mono; lra|left; apply Rinv_0_lt_compat, ln10_gt]. }
      rewrite (Rabs_pos_eq (ln (INR n) / ln 10)) in Hy by assumption. split; [exact Hy|]. split; [assumption|].
      assert (A : Rabs (ln (INR n) / ln 10) <= INR 13) by (apply log10_bounds; split; [apply Rle_trans with 1; [|exact N1]; apply Rmult_le_reg_r with (10 ^ 13); [apply pow_lt; lra|rewrite Rinv_l by (apply pow_nonzero; lra); cbn; lra]|cbn; lra]).
      rewrite (Rabs_pos_eq (ln (INR n) / ln 10)) in A by assumption. cbn in A. lra.
  Qed.
  (** reference magnitude and scaling *)
  Lemma scaling_err ks kc kref b s v l : moderate j d kc -> (forall k, kref = Some k -> moderate j d k) -> (forall x, b = Some x -> Rabs x <= 10) ->
    (forall x, s = Some x -> rnd x = x /\ / 10 ^ 30 <= x <= 10 ^ 30) -> (kref <> None -> b <> None) ->
    Rabs (v - l) <= 60 * u -> 0 <= l <= 13 ->
    exists r, @a_reference_scaling xr (F64 L) (a_args_at j d ks kc kref b s) (Fin v) = Ok (Fin r) /\
      Rabs (r - (l - match kref, b with Some k, Some b => b * (IZR (k - kc) * w) | _, _ => 0 end - match s with Some s => ln s / ln 10 | None => 0 end)) <= 2 / 1000000000000.
  Proof.
    intros Hc Hk Hb Hs Hkb Hv Hl. pose proof u_val as U. apply Rabs_le_inv in Hv.
    unfold a_reference_scaling, a_args_at. cbn [aa_mref aa_b aa_scaling aa_mc].
    assert (V : exists t p, (match option_map (fun k => Fin (decimal j d k)) kref with
                            | None => Ok (Fin v)
                            | Some m_ref => match option_map Fin b with
                                            | None => Err ValueError
                                            | Some b => Ok (@nsub xr (F64 L) (Fin v) (@nmul xr (F64 L) b (@nsub xr (F64 L) m_ref (Fin (decimal j d kc)))))
                                            end
                            end) = Ok (Fin t) /\ p = match kref, b with Some k, Some b => b * (IZR (k - kc) * w) | _, _ => 0 end /\ Rabs p <= 2011 /\ Rabs (t - (l - p)) <= 8200 * u).
    { destruct kref as [k|]; cbn [option_map].
      - destruct b as [b|]; [|exfalso; apply Hkb; [discriminate|reflexivity]]. cbn [option_map]. specialize (Hk k eq_refl). specialize (Hb b eq_refl).
        destruct (difference_err L j d k kc W Hk Hc) as (x & Ex & Dx & Bx). rewrite Ex. fold w in Dx.
        assert (P : Rabs (b * x) <= 2010). { rewrite Rabs_mult. apply Rle_trans with (10 * 201); [apply Rmult_le_compat; try apply Rabs_pos; assumption|lra]. }
        rewrite f_mul by (unfold big; lra).
        pose proof (rnd_err_le (b * x) 2010 P) as E1. 
        assert (Q : Rabs (b * x - b * (IZR (k - kc) * w)) <= 4020 * u).
        { rewrite <- Rmult_minus_distr_l, Rabs_mult. apply Rle_trans with (10 * (402 * u)); [apply Rmult_le_compat; try apply Rabs_pos; assumption|lra]. }
        apply Rabs_le_inv in E1, Q, P. unfold h in E1. set (m := rnd (b * x)) in *.
        assert (Bm : Rabs (v - m) <= 2030) by (apply Rabs_le; unfold u in *; lra).
        rewrite f_sub by (unfold big; lra). pose proof (rnd_err_le (v - m) 2030 Bm) as E2. apply Rabs_le_inv in E2. unfold h in E2.
        eexists _, _. split; [reflexivity|]. split; [reflexivity|]. unfold u in *. split; apply Rabs_le; lra.
      - exists v, 0. split; [reflexivity|]. split; [destruct b; reflexivity|]. rewrite Rabs_R0. split; [lra|]. apply Rabs_le. unfold u in *. lra. }
    destruct V as (t & p & Et & Ep & Bp & Dt). rewrite <- Ep. clear Ep. 
    match goal with |- context [rbind ?e _] => replace e with (@Ok xr (Fin t)) by (symmetry; exact Et) end. cbn [rbind].
    apply Rabs_le_inv in Bp, Dt. destruct s as [s|]; cbn [option_map].
    - destruct (Hs s eq_refl) as [Fs Bs]. pose proof (log10_bounds s 30 Bs) as Ls. replace (INR 30) with 30 in Ls by (cbn; lra).
      destruct (H10 s) as (y & Ey & Hy).
      + split; [eapply Rlt_le_trans; [|apply Bs]; apply Rinv_0_lt_compat, pow_lt; lra|]. unfold maxfin. eapply Rle_lt_trans; [apply Bs|]. apply Rlt_trans with (bpow radix2 200); [cbn; lra|apply bpow_lt; lia].
      + exact Fs.
      + change (@nlog10 xr (F64 L) (Fin s)) with (l_log10 L (Fin s)). rewrite Ey. apply Rabs_le_inv in Hy. set (ls := ln s / ln 10) in *.
        assert (Hy' : - (120 * u + / 1000000000000000000000000000000) <= y - ls <= 120 * u + / 1000000000000000000000000000000) by (unfold u in *; lra).
        apply Rabs_le_inv in Ls. assert (B : Rabs (t - y) <= 2070) by (apply Rabs_le; unfold u in *; lra).
        rewrite f_sub by (unfold big; lra). pose proof (rnd_err_le (t - y) 2070 B) as E. apply Rabs_le_inv in E. unfold h in E.
        eexists. split; [reflexivity|]. apply Rabs_le. unfold u in *. lra.
    - eexists. split; [reflexivity|]. apply Rabs_le. unfold u in *. lra.
  Qed.
End Acc.

(** The classic a-value of magnitudes below 8 on a grid, at most 2^40 of them at or above mc, with
    reference magnitude and scaling factor: the double returned differs by at most 2 * 10^-12 from
    exact arithmetic on the decimal magnitudes. *)
Theorem C222_classic : forall (L : libm) srt w j d ks kc kref b s o ws, log10_accurate L -> usual_width j d ->
  (forall i, In i ks -> below8 j d i) -> moderate j d kc -> (forall k, kref = Some k -> moderate j d k) -> (forall x, b = Some x -> Rabs x <= 10) ->
  (forall x, s = Some x -> rnd x = x /\ / 10 ^ 30 <= x <= 10 ^ 30) -> (kref <> None -> b <> None) ->
  let n := List.length (filter (Z.leb kc) ks) in (1 <= Z.of_nat n <= 2 ^ 40)%Z ->
  exists v o' ws', @a_calculate xr (F64 L) srt AClassic w (a_args_at j d ks kc kref b s) (o, ws) = ((o', ws'), Ok (Fin v)) /\
    a_value o' = Ok (Fin v) /\ a_n o' = Ok n /\ Rabs (v - exact_a (widthR j d) n kc kref b s) <= 2 / 1000000000000.
Proof.
  intros L srt w j d ks kc kref b s o ws HL W B C Hk Hb Hs Hkb n Hn. set (a := a_args_at j d ks kc kref b s).
  pose proof (@a_classic_run xr (F64 L) srt w a o ws) as R.
  rewrite check_binned in R by (apply (mags_at_ok L j d ks); auto). destruct R as (ws' & R). cbv zeta in R.
  rewrite (f_mags_a L j d ks kc a W B C eq_refl eq_refl eq_refl) in R.
  assert (Ln : List.length (mags_at j d (filter (Z.leb kc) ks)) = n) by (unfold mags_at; apply map_length). rewrite Ln in R.
  destruct (mags_at j d (filter (Z.leb kc) ks)) as [|m0 ms0] eqn:Em; [cbn in Ln; lia|]. rewrite <- Em in R, Ln.
  destruct (log10_count L HL n Hn) as (v & Ev & Dv & Bl). rewrite Ev in R.
  destruct (scaling_err L j d W HL ks kc kref b s v (ln (INR n) / ln 10) C Hk Hb Hs Hkb) as (r & Er & Dr); [unfold u; lra|exact Bl|].
  fold a in Er. rewrite Er in R. eexists r, _, ws'. split; [exact R|]. split; [reflexivity|]. split; [|exact Dr].
  unfold a_n, a_value, omags, done; cbn [ao_a ao_mags rmap]. rewrite Ln. reflexivity.
Qed.
Print Assumptions C222_classic.
(** Without reference magnitude and scaling factor the relative error is that of one logarithm. *)
Theorem C222_plain : forall (L : libm) srt w j d ks kc b o ws, log10_accurate L -> usual_width j d ->
  (forall i, In i ks -> below8 j d i) -> moderate j d kc ->
  let n := List.length (filter (Z.leb kc) ks) in (1 <= Z.of_nat n <= 2 ^ 40)%Z ->
  exists v o' ws', @a_calculate xr (F64 L) srt AClassic w (a_args_at j d ks kc None b None) (o, ws) = ((o', ws'), Ok (Fin v)) /\
    Rabs (v - ln (INR n) / ln 10) <= ln (INR n) / ln 10 / 2251799813685248 + / 1000000000000000000000000000000.
Proof.
  intros L srt w j d ks kc b o ws HL W B C n Hn. set (a := a_args_at j d ks kc None b None).
  pose proof (@a_classic_run xr (F64 L) srt w a o ws) as R.
  rewrite check_binned in R by (apply (mags_at_ok L j d ks); auto). destruct R as (ws' & R). cbv zeta in R.
  rewrite (f_mags_a L j d ks kc a W B C eq_refl eq_refl eq_refl) in R.
  assert (Ln : List.length (mags_at j d (filter (Z.leb kc) ks)) = n) by (unfold mags_at; apply map_length). rewrite Ln in R.
  destruct (mags_at j d (filter (Z.leb kc) ks)) as [|m0 ms0] eqn:Em; [cbn in Ln; lia|]. rewrite <- Em in R, Ln.
  destruct (log10_count L HL n Hn) as (v & Ev & Dv & Bl). rewrite Ev in R.
  unfold a_reference_scaling, a, a_args_at in R. cbn [aa_mref aa_scaling option_map rbind] in R. eexists v, _, ws'. split; [exact R|exact Dv].
Qed.
Print Assumptions C222_plain.

(** A logarithm that is correctly rounded is accurate in this sense. *)
Definition rounding_log10 : libm := Build_libm left_sum (fun x => x) (fun x => x) (fun x => match x with Fin r => fl (ln r / ln 10) | _ => x end) (fun x => x) (fun x => x) (fun x => x) (fun x _ => x).
Lemma rounding_log10_accurate : log10_accurate rounding_log10.
Proof.
  intros x Hx Hf. cbn [l_log10 rounding_log10].
  assert (L10 : 1 <= ln 10).
  { rewrite <- (ln_exp 1). apply ln_mono; [apply exp_pos|]. pose proof exp_le_3. lra. }
  assert (U : Rabs (ln x) <= 2000).
  { apply Rabs_le. split.
    - assert (M : bpow radix2 (-1074) <= x).
      { apply (generic_format_ge_bpow radix2 (FLT_exp (-1074) 53)); [|lra|rewrite <- Hf; apply rnd_format]. intros e. unfold FLT_exp. lia. }
      apply ln_mono in M; [|apply bpow_gt_0]. rewrite bpow_exp, ln_exp in M. pose proof (ln_tangent 2 1 ltac:(lra) ltac:(lra)) as T. rewrite ln_1 in T. change (IZR radix2) with 2 in M. lra.
    - assert (M : ln x <= ln maxfin) by (apply ln_mono; lra). unfold maxfin in M. rewrite bpow_exp, ln_exp in M.
      pose proof (ln_tangent 2 1 ltac:(lra) ltac:(lra)) as T. rewrite ln_1 in T. change (IZR radix2) with 2 in M. lra. }
  assert (Q : Rabs (ln x / ln 10) <= 2000).
  { unfold Rdiv. rewrite Rabs_mult, (Rabs_pos_eq (/ ln 10)) by (left; apply Rinv_0_lt_compat; lra).
    apply Rle_trans with (2000 * 1); [|lra]. apply Rmult_le_compat; [apply Rabs_pos|left; apply Rinv_0_lt_compat; lra|exact U|].
    rewrite <- Rinv_1. apply Rinv_le_contravar; lra. }
  rewrite fl_fin by (unfold big; lra). eexists. split; [reflexivity|]. eapply Rle_trans; [apply rnd_err|].
  pose proof (Rabs_pos (ln x / ln 10)). unfold u, h. apply Rplus_le_compat; [unfold Rdiv; apply Rmult_le_compat_l; [assumption|lra]|lra].
Qed.
Example C222_example : log10_accurate rounding_log10 /\ usual_width 1 1 /\ (forall i, In i [12; 13; 79; -5; 40]%Z -> below8 1 1 i) /\ moderate 1 1 13 /\ moderate 1 1 20 /\
  length (filter (Z.leb 13) [12; 13; 79; -5; 40]%Z) = 3%nat /\ (rnd 4 = 4 /\ / 10 ^ 30 <= 4 <= 10 ^ 30).
Proof.
  split; [exact rounding_log10_accurate|]. split; [exact ex_width|]. 
  split; [exact (proj1 (proj2 (proj2 C174_example)))|]. split; [exact (proj1 (proj2 C174_example))|].
  split; [unfold moderate, widthR; cbn; apply Rabs_le; lra|]. split; [reflexivity|].
  split; [apply (rnd_int 4); lia|]. split; [|cbn; lra]. apply Rle_trans with 1; [|lra]. rewrite <- Rinv_1. apply Rinv_le_contravar; [lra|cbn; lra].
Qed.
