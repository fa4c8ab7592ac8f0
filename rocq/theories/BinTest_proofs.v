(** Proofs about [binning_test]. *)
From Coq Require Import Reals Lra List Permutation Lia Bool ZArith.
From Verif Require Import Base Num XR RList Binning_model Spec_Binning Binning_proofs.
Import ListNotations.
Open Scope R_scope.

Lemma filter_notnan_fins x : no_inf x ->
  filter (fun v : xr => negb (nisnan v)) x = map Fin (fins x).
Proof.
  induction x as [|v x IH]; intros H; [reflexivity|].
  assert (Hx : no_inf x) by (intros w Hw; apply H; right; assumption).
  destruct (H v (or_introl eq_refl)) as [H1 H2].
  destruct v; try congruence; cbn; [f_equal|]; apply IH; assumption.
Qed.

Definition shiftR (vs : list R) : list R :=
  match vs with [] => [] | a :: t => map (fun v => v - Rminl a t) (a :: t) end.

Lemma shift_to_min_fin x : no_inf x ->
  shift_to_min x = match fins x with [] => Err ValueError | _ => Ok (map Fin (shiftR (fins x))) end.
Proof.
  intros H. unfold shift_to_min. rewrite filter_notnan_fins by assumption.
  destruct (fins x) as [|a t]; [reflexivity|]. cbn [map]. rewrite x_amin.
  unfold shiftR. rewrite !map_map. reflexivity.
Qed.

Lemma shiftR_in vs m y : is_min m vs -> (In y (shiftR vs) <-> exists v, In v vs /\ y = v - m).
Proof.
  intros [Hm Hle]. destruct vs as [|a t]; [destruct Hm|].
  assert (E : Rminl a t = m).
  { apply Rle_antisym; [apply Rminl_le; assumption|apply Hle; apply Rminl_in]. }
  unfold shiftR. rewrite E, in_map_iff. split; intros (v & A & B); exists v; split; auto.
Qed.
Lemma is_min_exists vs : vs <> [] -> exists m, is_min m vs.
Proof.
  destruct vs as [|a t]; [congruence|]. intros _. exists (Rminl a t).
  split; [apply Rminl_in|intros; apply Rminl_le; assumption].
Qed.
Lemma is_min_unique m m' vs : is_min m vs -> is_min m' vs -> m = m'.
Proof. intros [A B] [C D]. apply Rle_antisym; auto. Qed.
Lemma shiftR_nil vs : shiftR vs = [] <-> vs = [].
Proof. destruct vs; cbn; split; congruence. Qed.

Definition closeb (d t y : R) : bool := rle (Rabs (binR d y - y)) (t + relR * Rabs y).

Lemma allclose_fin d t ys :
  allclose (map Fin (map (binR d) ys)) (map Fin ys) (Fin t) = forallb (closeb d t) ys.
Proof.
  unfold allclose. rewrite zip_map.
  induction ys as [|y ys IH]; [reflexivity|]. cbn [map zip forallb fst snd]. rewrite IH. f_equal.
  unfold isclose, closeb, nfinite. rewrite !x_isnan, !x_isinf. cbn [negb andb].
  rewrite x_lit, x_sub, !x_abs, x_mul, x_add, x_leb. reflexivity.
Qed.

(** closeness of the binned value vs closeness to some grid point *)
Lemma closeb_exists d t y : 0 < d -> 0 <= y ->
  closeb d t y = true -> exists k : Z, Rabs (y - IZR k * d) <= t + relR * y.
Proof.
  intros Hd Hy H. unfold closeb in H. apply rle_true in H.
  destruct (binR_near d y Hd) as (k & E & _). exists k. rewrite E in H.
  rewrite Rabs_minus_sym. rewrite (Rabs_right y) in H by lra. assumption.
Qed.
Lemma exists_closeb d t y k : 0 < d -> 0 <= y -> t + relR * y < (1 / 2 - epsR) * d ->
  Rabs (y - IZR k * d) <= t + relR * y -> closeb d t y = true.
Proof.
  intros Hd Hy Ht H. pose proof epsR_bounds.
  assert (N : near_grid d y (IZR k * d)).
  { exists k. split; [reflexivity|]. assert (Rabs (y - IZR k * d) < (1 / 2 - epsR) * d) by lra.
    apply Rabs_def2 in H1.
    split; nra. }
  unfold closeb. apply rle_true. rewrite (near_grid_unique d y _ _ Hd (binR_near d y Hd) N).
  rewrite Rabs_minus_sym, (Rabs_right y) by lra. assumption.
Qed.

(** *** powers of ten *)
Lemma powerRZ_IZR p : (0 <= p)%Z -> powerRZ 10 p = IZR (10 ^ p).
Proof.
  intros H. rewrite <- (Z2Nat.id p) by assumption. generalize (Z.to_nat p) as n. intros n.
  rewrite <- pow_powerRZ. induction n as [|n IH]; [reflexivity|].
  rewrite Nat2Z.inj_succ, Z.pow_succ_r by lia. rewrite mult_IZR, <- IH. cbn. reflexivity.
Qed.
Lemma powerRZ10_pos p : 0 < powerRZ 10 p.
Proof. apply powerRZ_lt. lra. Qed.
Lemma decR_pow10 p : decR (dec_pow10 p) = powerRZ 10 p.
Proof.
  unfold dec_pow10. destruct (Z.ltb_spec p 0); [|destruct (Z.ltb_spec p 16)]; unfold decR; cbn [expo mant].
  - destruct (Z.ltb_spec p 0); [|lia]. rewrite <- powerRZ_IZR by lia.
    pose proof (powerRZ10_pos p). rewrite powerRZ_neg'. field. lra.
  - replace (-1 <? 0)%Z with true by reflexivity. change (- -1)%Z with 1%Z.
    rewrite <- !powerRZ_IZR by lia. rewrite powerRZ_add by lra. field.
    apply powerRZ_NOR. lra.
  - destruct (Z.ltb_spec p 0); [lia|]. rewrite mult_IZR, <- powerRZ_IZR by lia. lra.
Qed.
Lemma powerRZ_mono p q : (p <= q)%Z -> powerRZ 10 p <= powerRZ 10 q.
Proof.
  intros H. replace q with (p + (q - p))%Z by lia. rewrite powerRZ_add by lra.
  assert (1 <= powerRZ 10 (q - p)).
  { rewrite powerRZ_IZR by lia. apply IZR_le. assert (0 < 10 ^ (q - p))%Z by (apply Z.pow_pos_nonneg; lia). lia. }
  pose proof (powerRZ10_pos p). nra.
Qed.
Lemma powerRZ_lt_mono p q : (p < q)%Z -> powerRZ 10 p < powerRZ 10 q.
Proof.
  intros H. apply Rlt_le_trans with (powerRZ 10 (p + 1)); [|apply powerRZ_mono; lia].
  rewrite powerRZ_add by lra. simpl (powerRZ 10 1). pose proof (powerRZ10_pos p). lra.
Qed.
Lemma ln10_pos : 0 < ln 10.
Proof. rewrite <- ln_1. apply ln_increasing; lra. Qed.
Lemma ln_powerRZ p : ln (powerRZ 10 p) = IZR p * ln 10.
Proof.
  rewrite powerRZ_Rpower by lra. unfold Rpower. rewrite ln_exp. reflexivity.
Qed.
Lemma ln_le_inv' a b : 0 < a -> 0 < b -> ln a <= ln b -> a <= b.
Proof.
  intros Ha Hb [H|H]; [left; apply ln_lt_inv; assumption|right; apply ln_inv; assumption].
Qed.
Lemma ln_le' a b : 0 < a -> a <= b -> ln a <= ln b.
Proof. intros Ha [H|H]; [left; apply ln_increasing; assumption|rewrite H; right; reflexivity]. Qed.
(** floor(log10 d) is the exponent of the largest power of ten not above d *)
Lemma log10_floor d p : 0 < d -> (Int_part (ln d / ln 10) = p <-> powerRZ 10 p <= d < powerRZ 10 (p + 1)).
Proof.
  intros Hd. pose proof ln10_pos as L. split.
  - intros <-. destruct (Int_part_spec (ln d / ln 10)) as [A B].
    assert (E : ln d = ln d / ln 10 * ln 10) by (field; lra).
    set (q := ln d / ln 10) in *. clearbody q.
    split.
    + apply ln_le_inv'; [apply powerRZ10_pos|assumption|]. rewrite ln_powerRZ. rewrite E.
      apply Rmult_le_compat_r; lra.
    + apply ln_lt_inv; [assumption|apply powerRZ10_pos|]. rewrite ln_powerRZ, plus_IZR, E.
      apply Rmult_lt_compat_r; lra.
  - intros [A B]. apply Int_part_unique.
    apply ln_le' in A; [|apply powerRZ10_pos]. apply ln_increasing in B; [|assumption].
    rewrite ln_powerRZ in A, B. rewrite plus_IZR in B.
    split.
    + apply Rmult_le_reg_r with (ln 10); [assumption|]. replace (ln d / ln 10 * ln 10) with (ln d) by (field; lra). assumption.
    + apply Rmult_lt_reg_r with (ln 10); [assumption|]. replace (ln d / ln 10 * ln 10) with (ln d) by (field; lra). lra.
Qed.
Lemma next_pow10_exists d : 0 < d -> next_pow10 d (powerRZ 10 (Int_part (ln d / ln 10) + 1)).
Proof.
  intros Hd. exists (Int_part (ln d / ln 10)). split; [reflexivity|]. apply log10_floor; [assumption|reflexivity].
Qed.
Lemma next_pow10_unique d D D' : next_pow10 d D -> next_pow10 d D' -> D = D'.
Proof.
  intros (p & -> & A & B) (q & -> & A' & B').
  assert (0 < d) by (pose proof (powerRZ10_pos p); lra).
  assert (p = q); [|subst; reflexivity].
  rewrite <- (proj2 (log10_floor d p H) (conj A B)). apply log10_floor; auto.
Qed.

(** *** the branch for a given bin width, on a shifted sample *)
Definition delta_res (d t : R) (larger : bool) (ys : list R) : bool :=
  forallb (closeb d t) ys &&
  (if larger then negb (forallb (closeb (powerRZ 10 (Int_part (ln d / ln 10) + 1)) t) ys) else true).

Lemma binning_test_delta_fin ys delta t larger :
  epsR <= decR delta -> t <= decR delta ->
  binning_test_delta (map Fin ys) delta (Fin t) larger = Ok (delta_res (decR delta) t larger ys).
Proof.
  intros He Ht. pose proof epsR_bounds as Eb. unfold binning_test_delta, delta_res.
  rewrite x_dec_val, x_ltb, (proj2 (rlt_false _ _) Ht), bin_to_precision_fin by assumption.
  cbn [rbind]. rewrite allclose_fin.
  destruct (forallb (closeb (decR delta) t) ys); cbn [andb]; [|reflexivity].
  destruct larger; [|reflexivity]. rewrite x_log10 by lra. rewrite x_floorZ.
  destruct (next_pow10_exists (decR delta)) as (p & E & A & B); [lra|].
  rewrite bin_to_precision_fin; [|rewrite decR_pow10; lra].
  cbn [rbind]. rewrite decR_pow10, allclose_fin. reflexivity.
Qed.
Lemma binning_test_delta_small ys delta t larger : decR delta < t ->
  binning_test_delta (map Fin ys) delta (Fin t) larger = Ok true.
Proof.
  intros Ht. unfold binning_test_delta. rewrite x_dec_val, x_ltb, (proj2 (rlt_true _ _) Ht). reflexivity.
Qed.
Lemma binning_test_delta_err ys delta t larger : t <= decR delta -> decR delta < epsR ->
  binning_test_delta (map Fin ys) delta (Fin t) larger = Err ValueError.
Proof.
  intros Ht He. unfold binning_test_delta. rewrite x_dec_val, x_ltb, (proj2 (rlt_false _ _) Ht).
  unfold bin_to_precision. rewrite delta_bad_ltb by assumption. reflexivity.
Qed.

Lemma forallb_closeb_spec d t vs : 0 < d -> vs <> [] -> tol_small d t vs ->
  (forallb (closeb d t) (shiftR vs) = true <-> binned_within d t vs).
Proof.
  intros Hd Hne Hs. destruct (is_min_exists vs Hne) as (m & Hm). rewrite forallb_forall. split.
  - intros H m' Hm' v Hv. rewrite (is_min_unique m' m vs Hm' Hm).
    destruct Hm as [Hm1 Hm2]. apply closeb_exists; [assumption|specialize (Hm2 v Hv); lra|].
    apply H. apply (shiftR_in vs m); [split; assumption|]. exists v; auto.
  - intros H y Hy. apply (shiftR_in vs m) in Hy; [|assumption]. destruct Hy as (v & Hv & ->).
    destruct (H m Hm v Hv) as (k & Hk). destruct Hm as [Hm1 Hm2].
    apply exists_closeb with k; auto. specialize (Hm2 v Hv); lra.
Qed.
Lemma forallb_closeb_sound d t vs : 0 < d -> vs <> [] ->
  forallb (closeb d t) (shiftR vs) = true -> binned_within d t vs.
Proof.
  intros Hd Hne. destruct (is_min_exists vs Hne) as (m & Hm). rewrite forallb_forall.
  intros H m' Hm' v Hv. rewrite (is_min_unique m' m vs Hm' Hm).
  destruct Hm as [Hm1 Hm2]. apply closeb_exists; [assumption|specialize (Hm2 v Hv); lra|].
  apply H. apply (shiftR_in vs m); [split; assumption|]. exists v; auto.
Qed.
Lemma tol_small_mono d D t vs : 0 < d <= D -> tol_small d t vs -> tol_small D t vs.
Proof. intros H Hs v w Hv Hw. specialize (Hs v w Hv Hw). pose proof epsR_bounds. nra. Qed.

(** *** whole function *)
Lemma binning_test_unfold_nz x delta t larger : no_inf x -> fins x <> [] ->
  (decR delta <> 0 \/ larger = false) ->
  binning_test x delta (Fin t) larger
  = binning_test_delta (map Fin (shiftR (fins x))) delta (Fin t) larger.
Proof.
  intros Hx Hne Hd. unfold binning_test. destruct x as [|v x']; [exfalso; apply Hne; reflexivity|].
  rewrite shift_to_min_fin by assumption.
  destruct (fins (v :: x')) as [|a t'] eqn:E; [congruence|]. cbn [rbind].
  rewrite x_dec_val, x_zero, x_eqb.
  destruct Hd as [Hd| ->]; [rewrite (proj2 (req_false _ _) Hd); reflexivity|].
  rewrite andb_false_r. reflexivity.
Qed.

Lemma binning_test_no_larger x delta t :
  no_inf x -> fins x <> [] -> epsR <= decR delta -> t <= decR delta ->
  tol_small (decR delta) t (fins x) ->
  exists b, binning_test x delta (Fin t) false = Ok b /\
            (b = true <-> binned_within (decR delta) t (fins x)).
Proof.
  intros Hx Hne He Ht Hs. pose proof epsR_bounds.
  rewrite binning_test_unfold_nz by auto. rewrite binning_test_delta_fin by assumption.
  eexists; split; [reflexivity|]. unfold delta_res. rewrite andb_true_r.
  apply forallb_closeb_spec; [lra|assumption|assumption].
Qed.
Lemma binning_test_larger x delta t D :
  no_inf x -> fins x <> [] -> epsR <= decR delta -> t <= decR delta ->
  tol_small (decR delta) t (fins x) -> next_pow10 (decR delta) D ->
  exists b, binning_test x delta (Fin t) true = Ok b /\
            (b = true <-> binned_within (decR delta) t (fins x) /\ ~ binned_within D t (fins x)).
Proof.
  intros Hx Hne He Ht Hs HD. pose proof epsR_bounds.
  rewrite binning_test_unfold_nz by (try assumption; left; lra).
  rewrite binning_test_delta_fin by assumption.
  eexists; split; [reflexivity|]. unfold delta_res.
  rewrite (next_pow10_unique _ _ D (next_pow10_exists (decR delta) ltac:(lra)) HD).
  rewrite andb_true_iff, forallb_closeb_spec; [|lra|assumption|assumption].
  rewrite negb_true_iff. rewrite <- not_true_iff_false.
  assert (0 < decR delta <= D) by (destruct HD as (p & -> & A & B); lra).
  rewrite forallb_closeb_spec; [tauto|lra|assumption|].
  apply tol_small_mono with (decR delta); assumption.
Qed.
Lemma binning_test_sound x delta t larger :
  no_inf x -> fins x <> [] -> epsR <= decR delta -> t <= decR delta ->
  binning_test x delta (Fin t) larger = Ok true -> binned_within (decR delta) t (fins x).
Proof.
  intros Hx Hne He Ht. pose proof epsR_bounds.
  rewrite binning_test_unfold_nz by (try assumption; left; lra).
  rewrite binning_test_delta_fin by assumption. intros E. injection E as E.
  unfold delta_res in E. apply andb_true_iff in E. apply forallb_closeb_sound; [lra|assumption|tauto].
Qed.
Lemma binning_test_all_nan x delta tol larger : no_inf x -> fins x = [] ->
  binning_test x delta tol larger = Err ValueError.
Proof.
  intros Hx He. unfold binning_test. destruct x as [|v x']; [reflexivity|].
  rewrite shift_to_min_fin, He by assumption. reflexivity.
Qed.

(** *** the result only depends on the set of differences *)
Lemma forallb_set {A} (p : A -> bool) l1 l2 : (forall v, In v l1 <-> In v l2) -> forallb p l1 = forallb p l2.
Proof.
  intros H. apply eq_true_iff_eq. rewrite !forallb_forall. split; intros G v Hv; apply G; apply H; assumption.
Qed.
Lemma binning_test_delta_set ys zs delta t larger : (forall v, In v ys <-> In v zs) ->
  binning_test_delta (map Fin ys) delta (Fin t) larger = binning_test_delta (map Fin zs) delta (Fin t) larger.
Proof.
  intros H. destruct (Rlt_le_dec (decR delta) t); [rewrite !binning_test_delta_small by assumption; reflexivity|].
  destruct (Rlt_le_dec (decR delta) epsR); [rewrite !binning_test_delta_err by assumption; reflexivity|].
  rewrite !binning_test_delta_fin by assumption. unfold delta_res.
  rewrite (forallb_set _ ys zs H). f_equal. f_equal. destruct larger; [|reflexivity].
  rewrite (forallb_set _ ys zs H). reflexivity.
Qed.
Lemma fins_map_Fin ys : fins (map Fin ys) = ys.
Proof. induction ys as [|y ys IH]; cbn; [reflexivity|]. rewrite IH; reflexivity. Qed.
Lemma no_inf_map_Fin ys : no_inf (map Fin ys).
Proof. intros v Hv. apply in_map_iff in Hv. destruct Hv as (r & <- & _). split; discriminate. Qed.
Lemma shiftR_set vs ws c : (forall v, In v vs <-> In (v + c) ws) ->
  forall y, In y (shiftR vs) <-> In y (shiftR ws).
Proof.
  intros H y. destruct vs as [|v0 vs'].
  - destruct ws as [|w ws']; [tauto|]. exfalso. specialize (H (w - c)). cbn in H. apply H. left; lra.
  - assert (Hne : v0 :: vs' <> []) by discriminate.
    destruct (is_min_exists (v0 :: vs') Hne) as (m & Hm).
    assert (Hm' : is_min (m + c) ws).
    { destruct Hm as [A B]. split; [apply H; assumption|].
      intros w Hw. assert (In (w - c) (v0 :: vs')) by (apply H; replace (w - c + c) with w by lra; assumption).
      specialize (B _ H0). lra. }
    rewrite (shiftR_in _ m) by assumption. rewrite (shiftR_in _ (m + c)) by assumption.
    split.
    + intros (v & Hv & ->). exists (v + c). split; [apply H; assumption|lra].
    + intros (w & Hw & ->). exists (w - c). split; [|lra].
      apply H. replace (w - c + c) with w by lra. assumption.
Qed.
Lemma binning_test_nz_fin ys delta t larger : ys <> [] ->
  binning_test_nz (map Fin ys) delta (Fin t) larger
  = binning_test_delta (map Fin (shiftR ys)) delta (Fin t) larger.
Proof.
  intros Hne. unfold binning_test_nz. destruct ys as [|y ys']; [congruence|].
  cbn [map]. change (Fin y :: map Fin ys') with (map Fin (y :: ys')).
  rewrite shift_to_min_fin by apply no_inf_map_Fin. rewrite fins_map_Fin. reflexivity.
Qed.
Lemma powers_loop_set ys zs ps t : ys <> [] -> zs <> [] -> (forall v, In v ys <-> In v zs) ->
  powers_loop (map Fin ys) ps (Fin t) = powers_loop (map Fin zs) ps (Fin t).
Proof.
  intros Hy Hz H. induction ps as [|p ps IH]; [reflexivity|]. cbn [powers_loop].
  rewrite !binning_test_nz_fin by assumption.
  rewrite (binning_test_delta_set (shiftR ys) (shiftR zs)).
  - destruct (binning_test_delta (map Fin (shiftR zs)) (dec_pow10 p) (Fin t) true) as [b|e]; cbn [rbind]; [|reflexivity].
    destruct b; [reflexivity|apply IH].
  - apply (shiftR_set ys zs 0). intros v. rewrite Rplus_0_r. apply H.
Qed.

Definition range_of (ys : list R) : R := match ys with [] => 0 | a :: t => Rmaxl a t - Rminl a t end.
Lemma range_of_set ys zs : ys <> [] -> zs <> [] -> (forall v, In v ys <-> In v zs) -> range_of ys = range_of zs.
Proof.
  destruct ys as [|y ys]; [congruence|]. destruct zs as [|z zs]; [congruence|]. intros _ _ H. cbn.
  rewrite (Rmaxl_ext y ys z zs H), (Rminl_ext y ys z zs H). reflexivity.
Qed.
Lemma binning_test_zero_unfold x delta t : no_inf x -> fins x <> [] -> decR delta = 0 ->
  binning_test x delta (Fin t) true =
  match xfloorZ (xlog10 (Fin t)), nceilZ (xlog10 (Fin (range_of (shiftR (fins x))))) with
  | Some p, Some q => powers_loop (map Fin (shiftR (fins x))) (zrange (p + 1) q) (Fin (Rpower 10 (IZR (p - 1))))
  | _, _ => Err ValueError
  end.
Proof.
  intros Hx Hne Hd. unfold binning_test. destruct x as [|v x']; [exfalso; apply Hne; reflexivity|].
  rewrite shift_to_min_fin by assumption.
  destruct (fins (v :: x')) as [|a t'] eqn:E; [congruence|]. cbn [rbind].
  rewrite x_dec_val, x_zero, x_eqb, (proj2 (req_true _ _) Hd). cbn [andb].
  cbn [shiftR map]. rewrite x_amax, x_amin, x_sub. reflexivity.
Qed.
Lemma binning_test_values x y c delta t larger : no_inf x -> no_inf y ->
  same_values_up_to c x y ->
  binning_test x delta (Fin t) larger = binning_test y delta (Fin t) larger.
Proof.
  intros Hx Hy H.
  assert (N : fins x = [] <-> fins y = []).
  { split; intros E.
    - destruct (fins y) as [|w ws] eqn:F; [reflexivity|]. exfalso.
      specialize (H (w - c)). rewrite E, F in H. cbn in H. apply H. left; lra.
    - destruct (fins x) as [|w ws] eqn:F; [reflexivity|]. exfalso.
      specialize (H w). rewrite E, F in H. cbn in H. apply H. left; reflexivity. }
  destruct (fins x) as [|a l] eqn:Ex.
  { rewrite !binning_test_all_nan; auto. apply N; reflexivity. }
  assert (Nx : fins x <> []) by congruence.
  assert (Ny : fins y <> []) by (intros F; apply N in F; discriminate).
  assert (S : forall v, In v (shiftR (fins x)) <-> In v (shiftR (fins y)))
    by (apply (shiftR_set _ _ c); exact H).
  destruct (Req_EM_T (decR delta) 0) as [Hd|Hd]; [destruct larger|].
  - rewrite !binning_test_zero_unfold by assumption.
    assert (Sx : shiftR (fins x) <> []) by (rewrite shiftR_nil; assumption).
    assert (Sy : shiftR (fins y) <> []) by (rewrite shiftR_nil; assumption).
    rewrite (range_of_set (shiftR (fins x)) (shiftR (fins y))) by assumption.
    destruct (xfloorZ (xlog10 (Fin t))); [|reflexivity].
    destruct (nceilZ (xlog10 (Fin (range_of (shiftR (fins y)))))); [|reflexivity].
    apply powers_loop_set; assumption.
  - rewrite !binning_test_unfold_nz by auto. apply binning_test_delta_set; exact S.
  - rewrite !binning_test_unfold_nz by auto. apply binning_test_delta_set; exact S.
Qed.

(** *** delta = 0 *)
Lemma Int_part_IZR z : Int_part (IZR z) = z.
Proof. apply Int_part_unique. lra. Qed.
Lemma ceil_log10 r q : 0 < r -> nceilZ (xlog10 (Fin r)) = Some q -> powerRZ 10 (q - 1) < r <= powerRZ 10 q.
Proof.
  intros Hr. unfold xlog10. destruct (Rlt_dec 0 r); [|lra]. unfold nceilZ. rewrite x_opp, x_floorZ.
  intros E. injection E as E. pose proof ln10_pos as L.
  destruct (Int_part_spec (- (ln r / ln 10))) as [A B].
  set (z := Int_part (- (ln r / ln 10))) in *. replace z with (- q)%Z in * by lia. rewrite opp_IZR in *.
  assert (El : ln r = ln r / ln 10 * ln 10) by (field; lra).
  set (w := ln r / ln 10) in *. clearbody w.
  split.
  - apply ln_lt_inv; [apply powerRZ10_pos|assumption|]. rewrite ln_powerRZ, minus_IZR, El.
    apply Rmult_lt_compat_r; lra.
  - apply ln_le_inv'; [assumption|apply powerRZ10_pos|]. rewrite ln_powerRZ, El.
    apply Rmult_le_compat_r; lra.
Qed.
Lemma shiftR_range vs v w : In v vs -> In w vs -> v - w <= range_of (shiftR vs).
Proof.
  intros Hv Hw. assert (Hne : vs <> []) by (intros ->; destruct Hv).
  destruct (is_min_exists vs Hne) as (m & Hm).
  assert (A : In (v - m) (shiftR vs)) by (apply (shiftR_in vs m); [assumption|exists v; auto]).
  assert (B : In (w - m) (shiftR vs)) by (apply (shiftR_in vs m); [assumption|exists w; auto]).
  destruct (shiftR vs) as [|a t]; [destruct A|]. cbn.
  pose proof (Rmaxl_ge a t _ A). pose proof (Rminl_le a t _ B). lra.
Qed.
(** With the default tolerance 1e-15 the loop starts with the bin width 1e-14, which
    bin_to_precision rejects. *)
Lemma binning_test_zero_default x v w delta : no_inf x -> In v (fins x) -> In w (fins x) ->
  v - w > powerRZ 10 (-14) -> decR delta = 0 ->
  binning_test x delta (lit 1 15) true = Err ValueError.
Proof.
  intros Hx Hv Hw Hr Hd. assert (Hne : fins x <> []) by (intros E; rewrite E in Hv; destruct Hv).
  rewrite x_lit. rewrite binning_test_zero_unfold by assumption.
  pose proof (shiftR_range _ v w Hv Hw) as Hrg. set (r := range_of (shiftR (fins x))) in *.
  assert (E15 : IZR 1 / IZR (10 ^ Z.of_nat 15) = powerRZ 10 (-15)).
  { rewrite <- decR_pow10. reflexivity. }
  rewrite E15.
  assert (Ef : xfloorZ (xlog10 (Fin (powerRZ 10 (-15)))) = Some (-15)%Z).
  { unfold xlog10. destruct (Rlt_dec 0 (powerRZ 10 (-15))) as [_|F]; [|exfalso; apply F; apply powerRZ10_pos].
    cbn [xfloorZ]. f_equal. apply log10_floor; [apply powerRZ10_pos|].
    split; [lra|]. apply powerRZ_lt_mono; lia. }
  rewrite Ef. pose proof (powerRZ10_pos (-14)).
  destruct (nceilZ (xlog10 (Fin r))) as [q|] eqn:Eq; [|reflexivity].
  apply ceil_log10 in Eq; [|lra].
  assert (Hq : (-14 < q)%Z).
  { apply Z.nle_gt. intros L. pose proof (powerRZ_mono q (-14) L). lra. }
  unfold zrange. destruct (Z.to_nat (q - (-15 + 1))) as [|n] eqn:En; [lia|].
  cbn [seq map powers_loop].
  assert (Sx : shiftR (fins x) <> []) by (rewrite shiftR_nil; assumption).
  rewrite binning_test_nz_fin by assumption.
  replace (-15 + 1 + Z.of_nat 0)%Z with (-14)%Z by reflexivity.
  rewrite binning_test_delta_err; [reflexivity| |].
  - rewrite decR_pow10. rewrite <- powerRZ_Rpower by lra. apply powerRZ_mono. lia.
  - rewrite decR_pow10. assert (E12 : epsR = powerRZ 10 (-12)) by (rewrite <- decR_pow10; reflexivity).
    rewrite E12. apply powerRZ_lt_mono. lia.
Qed.

Lemma shiftR_shiftR_set vs : forall y, In y (shiftR (shiftR vs)) <-> In y (shiftR vs).
Proof.
  intros y. destruct vs as [|v0 t0] eqn:Ev; [tauto|]. rewrite <- Ev in *.
  assert (Hne : vs <> []) by (rewrite Ev; discriminate).
  destruct (is_min_exists vs Hne) as (m & Hm).
  assert (H0 : is_min 0 (shiftR vs)).
  { destruct Hm as [A B]. split.
    - apply (shiftR_in vs m); [split; assumption|]. exists m. split; [assumption|lra].
    - intros z Hz. apply (shiftR_in vs m) in Hz; [|split; assumption].
      destruct Hz as (v & Hv & ->). specialize (B v Hv). lra. }
  rewrite (shiftR_in _ 0) by assumption. split.
  - intros (v & Hv & ->). rewrite Rminus_0_r. assumption.
  - intros Hy. exists y. split; [assumption|lra].
Qed.
Lemma powers_loop_res ys ps t : ys <> [] ->
  (forall p, In p ps -> epsR <= powerRZ 10 p /\ t <= powerRZ 10 p) ->
  powers_loop (map Fin (shiftR ys)) ps (Fin t)
  = Ok (negb (existsb (fun p => delta_res (powerRZ 10 p) t true (shiftR ys)) ps)).
Proof.
  intros Hne H. induction ps as [|p ps IH]; [reflexivity|]. cbn [powers_loop existsb].
  rewrite binning_test_nz_fin by (rewrite shiftR_nil; assumption).
  rewrite (binning_test_delta_set _ (shiftR ys)) by apply shiftR_shiftR_set.
  destruct (H p (or_introl eq_refl)) as [A B].
  rewrite binning_test_delta_fin by (rewrite decR_pow10; assumption).
  rewrite decR_pow10. cbn [rbind].
  destruct (delta_res (powerRZ 10 p) t true (shiftR ys)); [reflexivity|]. cbn [orb].
  apply IH. intros q Hq. apply H. right; assumption.
Qed.
Lemma zrange_in lo hi z : In z (zrange lo hi) <-> (lo <= z < hi)%Z.
Proof.
  unfold zrange. rewrite in_map_iff. split.
  - intros (i & <- & Hi). apply in_seq in Hi. lia.
  - intros H. exists (Z.to_nat (z - lo)). split; [lia|]. apply in_seq. lia.
Qed.
Lemma binning_test_zero x delta t p range :
  no_inf x -> fins x <> [] -> decR delta = 0 -> 0 < t ->
  powerRZ 10 p <= t < powerRZ 10 (p + 1) -> epsR <= powerRZ 10 (p + 1) ->
  (exists v w, In v (fins x) /\ In w (fins x) /\ v - w = range) ->
  (forall v w, In v (fins x) -> In w (fins x) -> v - w <= range) ->
  0 < range -> relR * range <= 4 / 10 * powerRZ 10 (p + 1) ->
  exists b, binning_test x delta (Fin t) true = Ok b /\
   (b = false <-> exists z, (p + 1 <= z)%Z /\ powerRZ 10 z < range /\
      binned_within (powerRZ 10 z) (powerRZ 10 (p - 1)) (fins x) /\
      ~ binned_within (powerRZ 10 (z + 1)) (powerRZ 10 (p - 1)) (fins x)).
Proof.
  intros Hx Hne Hd Ht Hp He (v & w & Hv & Hw & Hvw) Hmax Hr Hrel. pose proof epsR_bounds as Eb.
  rewrite binning_test_zero_unfold by assumption.
  assert (Erange : range_of (shiftR (fins x)) = range).
  { apply Rle_antisym.
    - destruct (is_min_exists (fins x) Hne) as (m & Hm).
      destruct (shiftR (fins x)) as [|a l] eqn:Es; [apply (proj1 (shiftR_nil _)) in Es; congruence|].
      cbn. pose proof (Rmaxl_in a l) as I1. pose proof (Rminl_in a l) as I2. rewrite <- Es in I1, I2.
      apply (shiftR_in _ m) in I1; [|assumption]. apply (shiftR_in _ m) in I2; [|assumption].
      destruct I1 as (v1 & Hv1 & E1). destruct I2 as (v2 & Hv2 & E2). rewrite E1, E2.
      specialize (Hmax v1 v2 Hv1 Hv2). lra.
    - rewrite <- Hvw. apply shiftR_range; assumption. }
  rewrite Erange.
  assert (Ef : xfloorZ (xlog10 (Fin t)) = Some p).
  { unfold xlog10. destruct (Rlt_dec 0 t); [|lra]. cbn [xfloorZ]. f_equal. apply log10_floor; assumption. }
  rewrite Ef.
  assert (Eq : exists q, nceilZ (xlog10 (Fin range)) = Some q).
  { unfold xlog10. destruct (Rlt_dec 0 range); [|lra]. eexists. reflexivity. }
  destruct Eq as (q & Eq). rewrite Eq. apply ceil_log10 in Eq; [|assumption].
  rewrite <- powerRZ_Rpower by lra.
  assert (Hps : forall z, In z (zrange (p + 1) q) -> epsR <= powerRZ 10 z /\ powerRZ 10 (p - 1) <= powerRZ 10 z).
  { intros z Hz. apply zrange_in in Hz. split.
    - apply Rle_trans with (powerRZ 10 (p + 1)); [assumption|apply powerRZ_mono; lia].
    - apply powerRZ_mono; lia. }
  rewrite powers_loop_res by assumption.
  eexists; split; [reflexivity|]. rewrite negb_false_iff, existsb_exists.
  assert (Hts : forall z, (p + 1 <= z)%Z -> tol_small (powerRZ 10 z) (powerRZ 10 (p - 1)) (fins x)).
  { intros z Hz v1 v2 Hv1 Hv2. specialize (Hmax v1 v2 Hv1 Hv2).
    assert (Hrr : 0 < relR) by (unfold relR; simpl; lra).
    assert (relR * (v1 - v2) <= relR * range) by (apply Rmult_le_compat_l; lra).
    assert (E2 : powerRZ 10 (p + 1) = 100 * powerRZ 10 (p - 1)).
    { replace (p + 1)%Z with (2 + (p - 1))%Z by lia. rewrite powerRZ_add by lra.
      change (powerRZ 10 2) with (10 * (10 * 1)). lra. }
    pose proof (powerRZ_mono (p + 1) z Hz). pose proof (powerRZ10_pos (p - 1)). nra. }
  assert (Hz1 : forall z, (p + 1 <= z)%Z ->
      (delta_res (powerRZ 10 z) (powerRZ 10 (p - 1)) true (shiftR (fins x)) = true <->
       binned_within (powerRZ 10 z) (powerRZ 10 (p - 1)) (fins x) /\
       ~ binned_within (powerRZ 10 (z + 1)) (powerRZ 10 (p - 1)) (fins x))).
  { intros z Hz. unfold delta_res. rewrite andb_true_iff, negb_true_iff, <- not_true_iff_false.
    assert (Efl : Int_part (ln (powerRZ 10 z) / ln 10) = z).
    { apply log10_floor; [apply powerRZ10_pos|]. split; [lra|apply powerRZ_lt_mono; lia]. }
    rewrite Efl. rewrite !forallb_closeb_spec; auto using powerRZ10_pos; try tauto.
    apply Hts. lia. }
  split.
  - intros (z & Hz & E). apply zrange_in in Hz. apply Hz1 in E; [|lia].
    exists z. repeat split; try tauto; try lia.
    apply Rle_lt_trans with (powerRZ 10 (q - 1)); [apply powerRZ_mono; lia|tauto].
  - intros (z & Hz & Hlt & E). exists z. split.
    + apply zrange_in. split; [assumption|]. apply Z.nle_gt. intros L.
      pose proof (powerRZ_mono q z L). lra.
    + apply Hz1; assumption.
Qed.
