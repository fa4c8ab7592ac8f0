(** * Property theorems about binning (C01-C08, C73, C169) *)
From Coq Require Import Reals Lra List Permutation Lia Bool ZArith Sorted.
From Verif Require Import Base Num XR RList Binning_model Spec_Binning Binning_proofs BinTest_proofs Fmd_proofs.
Import ListNotations.
Open Scope R_scope.

(** ** C01 *)
Theorem C01_bin_to_precision_nearest : forall (delta : dec) (xs : list R), epsR <= decR delta ->
  exists ys, bin_to_precision (Some (map Fin xs)) delta = Ok (map Fin ys) /\
             Forall2 (near_grid (decR delta)) xs ys.
Proof.
  intros delta xs H. pose proof epsR_bounds. exists (map (binR (decR delta)) xs).
  split; [apply bin_to_precision_fin; exact H|]. apply Forall2_map_r. intros x _. apply binR_near. lra.
Qed.
Print Assumptions C01_bin_to_precision_nearest.
(** [near_grid] determines the result completely ... *)
Theorem C01_near_grid_determines : forall d x y1 y2, 0 < d -> near_grid d x y1 -> near_grid d x y2 -> y1 = y2.
Proof. exact near_grid_unique. Qed.
(** ... it is within half a bin (up to 1e-12 bins) of x, no grid value is closer by more
    than 2e-12 bins, values on the grid are fixed and ties go up. *)
Theorem C01_near_grid_meaning : forall d x y, 0 < d -> near_grid d x y ->
  Rabs (x - y) <= (1 / 2 + epsR) * d /\
  (forall j : Z, Rabs (x - y) <= Rabs (x - IZR j * d) + 2 * epsR * d) /\
  (forall j : Z, x = IZR j * d -> y = x) /\
  (forall j : Z, x = (IZR j + 1 / 2) * d -> y = IZR (j + 1) * d).
Proof.
  intros d x y Hd N. pose proof epsR_bounds as Eb. destruct N as (k & -> & A & B).
  split; [apply Rabs_le; nra|]. split; [|split].
  - intros j. destruct (Z.lt_trichotomy j k) as [L|[->|G]].
    + assert (IZR j + 1 <= IZR k) by (rewrite <- plus_IZR; apply IZR_le; lia).
      rewrite (Rabs_right (x - IZR j * d)) by nra. apply Rabs_le. nra.
    + nra.
    + assert (IZR k + 1 <= IZR j) by (rewrite <- plus_IZR; apply IZR_le; lia).
      rewrite (Rabs_left (x - IZR j * d)) by nra. apply Rabs_le. nra.
  - intros j ->. apply (near_grid_unique d (IZR j * d)); [exact Hd|exists k; auto|exists j; split; [reflexivity|nra]].
  - intros j ->. apply (near_grid_unique d ((IZR j + 1 / 2) * d)); [exact Hd|exists k; auto|].
    exists (j + 1)%Z. split; [reflexivity|]. rewrite plus_IZR. nra.
Qed.
Print Assumptions C01_near_grid_meaning.
Example C01_example : epsR <= decR (mkdec 1 (-1)) /\ near_grid (1 / 10) (1234 / 1000) (12 / 10).
Proof.
  unfold decR, epsR; simpl. split; [lra|]. exists 12%Z. unfold epsR; simpl. lra.
Qed.

(** ** C02 *)
Theorem C02_bin_idempotent : forall delta xs ys, epsR <= decR delta ->
  bin_to_precision (Some (map Fin xs)) delta = Ok ys ->
  bin_to_precision (Some ys) delta = Ok ys.
Proof.
  intros delta xs ys H E. pose proof epsR_bounds. rewrite bin_to_precision_fin in E by exact H. injection E as <-.
  rewrite bin_to_precision_fin by exact H. rewrite !map_map. f_equal.
  apply map_ext. intros x. f_equal. apply binR_idem. lra.
Qed.
Print Assumptions C02_bin_idempotent.
Theorem C02_bin_monotone : forall delta x y x' y', epsR <= decR delta -> x <= y ->
  bin_to_precision (Some [Fin x; Fin y]) delta = Ok [Fin x'; Fin y'] -> x' <= y'.
Proof.
  intros delta x y x' y' H L E. pose proof epsR_bounds.
  change [Fin x; Fin y] with (map Fin [x; y]) in E. rewrite bin_to_precision_fin in E by exact H.
  injection E as <- <-. apply binR_mono; lra.
Qed.
Print Assumptions C02_bin_monotone.
Theorem C02_bin_shift : forall delta xs ys (k : Z), epsR <= decR delta ->
  bin_to_precision (Some (map Fin xs)) delta = Ok (map Fin ys) ->
  bin_to_precision (Some (map (fun x => Fin (x + IZR k * decR delta)) xs)) delta
  = Ok (map (fun y => Fin (y + IZR k * decR delta)) ys).
Proof.
  intros delta xs ys k H E. pose proof epsR_bounds. rewrite bin_to_precision_fin in E by exact H.
  assert (E' : map (binR (decR delta)) xs = ys).
  { injection E as E. revert E. generalize (map (binR (decR delta)) xs) as zs. induction ys as [|y ys IH]; intros [|z zs]; cbn; try discriminate; auto.
    intros F. injection F as -> F. f_equal. auto. }
  rewrite <- (map_map (fun x => x + IZR k * decR delta) Fin). rewrite bin_to_precision_fin by exact H.
  rewrite <- E', !map_map. f_equal. apply map_ext. intros x. f_equal. apply binR_shift. lra.
Qed.
Print Assumptions C02_bin_shift.

(** ** C03: for every arithmetic *)
Theorem C03_bin_errors : forall T (N : Num T) (x : option (list T)) delta,
  (bin_to_precision x delta = Err ValueError <-> x = None \/ nltb (dec_val delta) EPSILON = true) /\
  (forall e, bin_to_precision x delta = Err e -> e = ValueError).
Proof.
  intros T N x delta. unfold bin_to_precision. destruct x as [xs|].
  - destruct (nltb (dec_val delta) EPSILON); split; try split; auto; try discriminate; try congruence.
    intros [F|F]; discriminate.
  - split; [split; auto|]. congruence.
Qed.
Print Assumptions C03_bin_errors.
Theorem C03_bin_elementwise : forall T (N : Num T) (xs ys : list T) delta,
  bin_to_precision (Some xs) delta = Ok ys ->
  length ys = length xs /\
  forall i x, nth_error xs i = Some x ->
    exists y, nth_error ys i = Some y /\ bin_to_precision (Some [x]) delta = Ok [y].
Proof.
  intros T N xs ys delta. unfold bin_to_precision. destruct (nltb (dec_val delta) EPSILON); [discriminate|].
  intros E. injection E as <-. split; [apply map_length|]. intros i x Hi. exists (bin_elem delta x).
  split; [apply map_nth_error; exact Hi|reflexivity].
Qed.
Print Assumptions C03_bin_elementwise.
Theorem C03_bin_nan_kept : forall delta, epsR <= decR delta ->
  bin_to_precision (Some [NaN]) delta = Ok [NaN].
Proof. intros delta H. unfold bin_to_precision. rewrite delta_ok_ltb by exact H. cbn [map]. rewrite bin_elem_nan. reflexivity. Qed.
Print Assumptions C03_bin_nan_kept.

(** ** C04 *)
Theorem C04_binning_test_characterisation : forall x delta t,
  no_inf x -> fins x <> [] -> epsR <= decR delta -> t <= decR delta ->
  tol_small (decR delta) t (fins x) ->
  exists b, binning_test x delta (Fin t) false = Ok b /\
            (b = true <-> binned_within (decR delta) t (fins x)).
Proof. exact binning_test_no_larger. Qed.
Print Assumptions C04_binning_test_characterisation.
Theorem C04_binning_test_larger_characterisation : forall x delta t D,
  no_inf x -> fins x <> [] -> epsR <= decR delta -> t <= decR delta ->
  tol_small (decR delta) t (fins x) -> next_pow10 (decR delta) D ->
  exists b, binning_test x delta (Fin t) true = Ok b /\
            (b = true <-> binned_within (decR delta) t (fins x) /\ ~ binned_within D t (fins x)).
Proof. exact binning_test_larger. Qed.
Print Assumptions C04_binning_test_larger_characterisation.
(** without any assumption on the size of the tolerance, True implies binned *)
Theorem C04_binning_test_sound : forall x delta t larger,
  no_inf x -> fins x <> [] -> epsR <= decR delta -> t <= decR delta ->
  binning_test x delta (Fin t) larger = Ok true -> binned_within (decR delta) t (fins x).
Proof. exact binning_test_sound. Qed.
Print Assumptions C04_binning_test_sound.
Theorem C04_binning_test_no_data : forall x delta tol larger,
  no_inf x -> fins x = [] -> binning_test x delta tol larger = Err ValueError.
Proof. exact binning_test_all_nan. Qed.
Print Assumptions C04_binning_test_no_data.
Theorem C04_binning_test_tiny_delta : forall x delta t larger,
  no_inf x -> fins x <> [] -> decR delta <> 0 -> decR delta < t ->
  binning_test x delta (Fin t) larger = Ok true.
Proof.
  intros x delta t larger Hx Hne Hd Ht. rewrite binning_test_unfold_nz by auto.
  apply binning_test_delta_small. exact Ht.
Qed.
Print Assumptions C04_binning_test_tiny_delta.
Example C04_example : let x := [Fin (2 / 10); NaN; Fin (6 / 10)] in let delta := mkdec 1 (-1) in
  no_inf x /\ fins x <> [] /\ epsR <= decR delta /\ 0 <= decR delta /\
  tol_small (decR delta) 0 (fins x) /\ next_pow10 (decR delta) 1 /\
  binned_within (decR delta) 0 (fins x) /\ ~ binned_within 1 0 (fins x).
Proof.
  cbv zeta. assert (Ed : decR (mkdec 1 (-1)) = 1 / 10) by reflexivity. rewrite Ed.
  assert (Er : 0 < relR < 1 / 1000) by (unfold relR; simpl; lra).
  assert (Ee : 0 < epsR < 1 / 1000) by (unfold epsR; simpl; lra).
  split; [intros v [<-|[<-|[<-|[]]]]; split; discriminate|].
  split; [discriminate|]. split; [lra|]. split; [lra|].
  split; [intros v w [<-|[<-|[]]] [<-|[<-|[]]]; nra|].
  split; [exists (-1)%Z; simpl; lra|]. split.
  - intros m [Hm1 Hm2] v Hv. assert (m = 2 / 10).
    { destruct Hm1 as [<-|[<-|[]]]; [reflexivity|]. specialize (Hm2 _ (or_introl eq_refl)). lra. }
    subst m. destruct Hv as [<-|[<-|[]]]; [exists 0%Z|exists 4%Z]; rewrite Rabs_right; nra.
  - intros H. destruct (H (2 / 10)) with (v := 6 / 10) as (k & Hk).
    + split; [left; reflexivity|]. intros v [<-|[<-|[]]]; lra.
    + right; left; reflexivity.
    + assert (Hlt : Rabs (6 / 10 - 2 / 10 - IZR k * 1) < 1 / 10) by nra. apply Rabs_def2 in Hlt.
      assert (0 < IZR k < 1) by lra. destruct H0 as [A B]. apply lt_IZR in A. apply lt_IZR in B. lia.
Qed.

(** ** C05 *)
Theorem C05_binning_test_depends_on_values_only : forall x y c delta t larger,
  no_inf x -> no_inf y -> same_values_up_to c x y ->
  binning_test x delta (Fin t) larger = binning_test y delta (Fin t) larger.
Proof. exact binning_test_values. Qed.
Print Assumptions C05_binning_test_depends_on_values_only.
Lemma fins_in v x : In v (fins x) <-> In (Fin v) x.
Proof.
  induction x as [|a x IH]; cbn; [tauto|]. destruct a; cbn; rewrite IH.
  - split; intros [H|H]; auto; left; congruence.
  - split; [auto|intros [H|H]; [discriminate|exact H]].
  - split; [auto|intros [H|H]; [discriminate|exact H]].
  - split; [auto|intros [H|H]; [discriminate|exact H]].
Qed.
Theorem C05_binning_test_permutation : forall x y delta t larger, no_inf x -> Permutation x y ->
  binning_test x delta (Fin t) larger = binning_test y delta (Fin t) larger.
Proof.
  intros x y delta t larger Hx P. apply (binning_test_values x y 0); auto.
  - intros v Hv. apply Hx. eapply Permutation_in; [apply Permutation_sym; exact P|exact Hv].
  - intros v. rewrite Rplus_0_r, !fins_in. split; apply Permutation_in; [|apply Permutation_sym]; exact P.
Qed.
Print Assumptions C05_binning_test_permutation.
Theorem C05_binning_test_nan_and_shift : forall x c delta t larger, no_inf x ->
  binning_test (NaN :: x) delta (Fin t) larger = binning_test x delta (Fin t) larger /\
  binning_test (map (fun v => nadd v (Fin c)) x) delta (Fin t) larger = binning_test x delta (Fin t) larger.
Proof.
  intros x c delta t larger Hx. split.
  - apply (binning_test_values _ _ 0); auto.
    + intros v [<-|Hv]; [split; discriminate|apply Hx; exact Hv].
    + intros v. rewrite Rplus_0_r. reflexivity.
  - symmetry. apply (binning_test_values _ _ c); auto.
    + intros v Hv. apply in_map_iff in Hv. destruct Hv as (u & <- & Hu). destruct (Hx u Hu).
      destruct u; try congruence; split; discriminate.
    + intros v. rewrite !fins_in, in_map_iff. split.
      * intros H. exists (Fin v). split; [reflexivity|exact H].
      * intros (u & E & Hu). destruct u; cbn in E; try discriminate. injection E as E.
        replace v with r by lra. exact Hu.
Qed.
Print Assumptions C05_binning_test_nan_and_shift.

(** ** C06 *)
Theorem C06_get_fmd_weighted : forall xs ws delta, xs <> [] -> epsR <= decR delta -> length ws = length xs ->
  exists ys lo n counts,
    Forall2 (near_grid (decR delta)) xs ys /\
    get_fmd (map Fin xs) delta (Some (map Fin ws)) Center
      = Ok (map Fin (grid (decR delta) lo n), map Fin counts, map Fin ys) /\
    is_min (IZR lo * decR delta) ys /\ is_max (IZR (lo + Z.of_nat n - 1) * decR delta) ys /\
    counts = map (fun b => weight_of (fun y => req y b) ys ws) (grid (decR delta) lo n) /\
    Rsum counts = Rsum ws.
Proof.
  intros xs ws delta Hne He Hl. pose proof epsR_bounds.
  destruct (get_fmd_R xs delta ws Center Hne He Hl) as (lo & n & Hmin & Hmax & E).
  exists (map (binR (decR delta)) xs), lo, (S n). eexists. split; [|split; [exact E|split; [exact Hmin|split; [|split; [reflexivity|]]]]].
  - apply Forall2_map_r. intros x _. apply binR_near. lra.
  - replace (lo + Z.of_nat (S n) - 1)%Z with (lo + Z.of_nat n)%Z by lia. exact Hmax.
  - apply fmd_total; auto; [lra|rewrite map_length; auto|].
    intros y Hy. apply in_map_iff in Hy. destruct Hy as (x & <- & _).
    destruct (binR_near (decR delta) x) as (k & F & _); [lra|]. exists k; exact F.
Qed.
Print Assumptions C06_get_fmd_weighted.
Theorem C06_get_fmd_counts : forall xs delta, xs <> [] -> epsR <= decR delta ->
  exists ys lo n counts,
    Forall2 (near_grid (decR delta)) xs ys /\
    get_fmd (map Fin xs) delta None Center
      = Ok (map Fin (grid (decR delta) lo n), map Fin counts, map Fin ys) /\
    is_min (IZR lo * decR delta) ys /\ is_max (IZR (lo + Z.of_nat n - 1) * decR delta) ys /\
    counts = map (fun b => number_of (fun y => req y b) ys) (grid (decR delta) lo n) /\
    Rsum counts = INR (length xs).
Proof.
  intros xs delta Hne He. rewrite get_fmd_None.
  destruct (C06_get_fmd_weighted xs (map (fun _ => 1) xs) delta Hne He) as (ys & lo & n & counts & A & B & C & D & E & F).
  { rewrite map_length. reflexivity. }
  exists ys, lo, n, counts. repeat split; auto; try apply C; try apply D.
  - rewrite E. apply map_ext. intros b. rewrite <- weight_of_unit. f_equal.
    clear -A. induction A; cbn; [reflexivity|]. f_equal; assumption.
  - rewrite F, Rsum_map_const. lra.
Qed.
Print Assumptions C06_get_fmd_counts.
Theorem C06_get_fmd_left : forall xs ws delta, xs <> [] -> epsR <= decR delta -> length ws = length xs ->
  exists bins counts binned,
    get_fmd (map Fin xs) delta (Some ws) Center = Ok (map Fin bins, counts, binned) /\
    get_fmd (map Fin xs) delta (Some ws) LeftEdge
      = Ok (map (fun b => Fin (b - decR delta / 2)) bins, counts, binned).
Proof.
  intros xs ws delta Hne He Hl. pose proof epsR_bounds.
  destruct (get_fmd_R xs delta (map (fun _ => 1) xs) Center Hne He) as (lo & n & _ & _ & E); [apply map_length|].
  cbv zeta in E. unfold get_fmd in *. rewrite x_dec_val, x_zero, x_leb in *.
  destruct (rle (decR delta) 0); [discriminate|]. rewrite bin_to_precision_fin in * by exact He. cbn [rbind] in *.
  destruct (map Fin (map (binR (decR delta)) xs)) as [|b0 bt] eqn:Eb; [discriminate|].
  destruct (np_arange (amin b0 bt) (nadd (amax b0 bt) (nmul (ndiv (ofZ 3) two) (Fin (decR delta)))) (Fin (decR delta))) as [ar|]; [|discriminate].
  cbn [rbind] in *. destruct (bin_to_precision (Some ar) delta) as [xb|]; [|discriminate]. cbn [rbind] in *.
  destruct (length (map Fin (map (fun _ : R => 1%R) xs)) =? length (b0 :: bt))%nat eqn:L1; [|discriminate].
  assert (L2 : (length ws =? length (b0 :: bt))%nat = true).
  { apply Nat.eqb_eq in L1. apply Nat.eqb_eq. rewrite !map_length in L1. congruence. }
  rewrite L2. cbn [rbind] in *.
  assert (E1 : removelast xb = map Fin (grid (decR delta) lo (S n))) by (injection E as E1 _; exact E1).
  rewrite E1. exists (grid (decR delta) lo (S n)). do 2 eexists. split; [reflexivity|]. f_equal. f_equal. f_equal. rewrite map_map. apply map_ext. intros b.
  rewrite x_two, x_div by lra. reflexivity.
Qed.
Print Assumptions C06_get_fmd_left.
Theorem C06_get_fmd_order_independent : forall xs xs' delta ws ws' pos, xs <> [] -> epsR <= decR delta ->
  length ws = length xs -> length ws' = length xs' -> Permutation (zip xs ws) (zip xs' ws') ->
  rmap fst (get_fmd (map Fin xs) delta (Some (map Fin ws)) pos)
  = rmap fst (get_fmd (map Fin xs') delta (Some (map Fin ws')) pos).
Proof. exact get_fmd_perm. Qed.
Print Assumptions C06_get_fmd_order_independent.
Example C06_example : [9 / 10; 11 / 10; 22 / 10] <> [] /\ epsR <= decR (mkdec 10 (-1)) /\
  near_grid (decR (mkdec 10 (-1))) (9 / 10) 1 /\ near_grid (decR (mkdec 10 (-1))) (22 / 10) 2.
Proof.
  unfold decR, epsR; simpl. split; [discriminate|]. split; [lra|].
  split; [exists 1%Z|exists 2%Z]; unfold epsR; simpl; lra.
Qed.

(** ** C07 *)
Theorem C07_get_fmd_rejects : forall T (N : Num T) (mags : list T) delta ws pos,
  (nleb (dec_val delta) zero = true -> get_fmd mags delta ws pos = Err ValueError) /\
  (get_fmd [] delta ws pos = Err ValueError) /\
  (forall r, get_fmd mags delta ws OtherPos <> Ok r).
Proof.
  intros T N mags delta ws pos. split; [|split].
  - intros H. unfold get_fmd. rewrite H. reflexivity.
  - unfold get_fmd. destruct (nleb (dec_val delta) zero); [reflexivity|].
    unfold bin_to_precision. destruct (nltb (dec_val delta) EPSILON); reflexivity.
  - intros r. unfold get_fmd. destruct (nleb (dec_val delta) zero); [discriminate|].
    destruct (bin_to_precision (Some mags) delta) as [binned|]; [|discriminate]. cbn [rbind].
    destruct binned as [|b0 bt]; [discriminate|].
    destruct (np_arange _ _ _) as [ar|]; [|discriminate]. cbn [rbind].
    destruct (bin_to_precision (Some ar) delta); [|discriminate]. cbn [rbind].
    destruct ws as [w|]; [|discriminate]. destruct (Nat.eqb _ _); discriminate.
Qed.
Print Assumptions C07_get_fmd_rejects.
Theorem C07_get_fmd_bad_position : forall xs delta ws, xs <> [] -> epsR <= decR delta ->
  length ws = length xs -> get_fmd (map Fin xs) delta (Some (map Fin ws)) OtherPos = Err AssertionError.
Proof. intros xs delta ws H1 H2 H3. destruct (get_fmd_R xs delta ws OtherPos H1 H2 H3) as (lo & n & _ & _ & E). exact E. Qed.
Print Assumptions C07_get_fmd_bad_position.
Theorem C07_get_cum_fmd_rejects : forall xs delta ws pos, decR delta < 0 \/ (xs = [] /\ decR delta <> 0) ->
  get_cum_fmd (map Fin xs) delta ws pos = Err ValueError.
Proof.
  intros xs delta ws pos H. unfold get_cum_fmd. rewrite x_dec_val, x_zero, x_eqb.
  rewrite (proj2 (req_false (decR delta) 0)) by (destruct H as [H|[_ H]]; lra).
  destruct H as [H|[-> H]].
  - unfold get_fmd. rewrite x_dec_val, x_zero, x_leb, (proj2 (rle_true _ _)) by lra. reflexivity.
  - destruct (C07_get_fmd_rejects xr XR [] delta ws pos) as (_ & E & _). cbn [map]. rewrite E. reflexivity.
Qed.
Print Assumptions C07_get_cum_fmd_rejects.

(** ** C08 *)
Theorem C08_get_cum_fmd_weighted : forall xs ws delta, xs <> [] -> epsR <= decR delta -> length ws = length xs ->
  exists ys lo n counts,
    Forall2 (near_grid (decR delta)) xs ys /\
    get_cum_fmd (map Fin xs) delta (Some (map Fin ws)) Center
      = Ok (map Fin (grid (decR delta) lo n), map Fin counts, map Fin ys) /\
    is_min (IZR lo * decR delta) ys /\ is_max (IZR (lo + Z.of_nat n - 1) * decR delta) ys /\
    counts = map (fun b => weight_of (fun y => rle b y) ys ws) (grid (decR delta) lo n) /\
    hd_error counts = Some (Rsum ws) /\
    ((forall w, In w ws -> 0 <= w) -> forall i c c', nth_error counts i = Some c -> nth_error counts (S i) = Some c' -> c' <= c).
Proof.
  intros xs ws delta Hne He Hl. pose proof epsR_bounds.
  destruct (get_cum_fmd_R xs delta ws Center Hne He Hl) as (lo & n & Hmin & Hmax & E).
  exists (map (binR (decR delta)) xs), lo, (S n). eexists.
  split; [|split; [exact E|split; [exact Hmin|split; [|split; [reflexivity|split]]]]].
  - apply Forall2_map_r. intros x _. apply binR_near. lra.
  - replace (lo + Z.of_nat (S n) - 1)%Z with (lo + Z.of_nat n)%Z by lia. exact Hmax.
  - rewrite grid_S. cbn [map hd_error]. f_equal. apply weight_of_all; [rewrite map_length; auto|].
    intros y Hy. apply rle_true. apply Hmin. exact Hy.
  - intros Hw i c c' H1 H2. rewrite nth_error_map in H1, H2.
    assert (Hi : (S i < S n)%nat).
    { assert (nth_error (grid (decR delta) lo (S n)) (S i) <> None) by (destruct (nth_error (grid (decR delta) lo (S n)) (S i)); discriminate).
      apply nth_error_Some in H0. rewrite grid_length in H0. exact H0. }
    rewrite nth_error_grid in H1, H2 by lia. cbn in H1, H2. injection H1 as <-. injection H2 as <-.
    apply weight_of_anti; [exact Hw|]. apply Rmult_le_compat_r; [lra|]. apply IZR_le. lia.
Qed.
Print Assumptions C08_get_cum_fmd_weighted.
Theorem C08_get_cum_fmd_counts : forall xs delta, xs <> [] -> epsR <= decR delta ->
  exists ys lo n counts,
    Forall2 (near_grid (decR delta)) xs ys /\
    get_cum_fmd (map Fin xs) delta None Center
      = Ok (map Fin (grid (decR delta) lo n), map Fin counts, map Fin ys) /\
    counts = map (fun b => number_of (fun y => rle b y) ys) (grid (decR delta) lo n) /\
    hd_error counts = Some (INR (length xs)).
Proof.
  intros xs delta Hne He. rewrite get_cum_fmd_None.
  destruct (C08_get_cum_fmd_weighted xs (map (fun _ => 1) xs) delta Hne He) as (ys & lo & n & counts & A & B & C & D & E & F & _).
  { rewrite map_length. reflexivity. }
  exists ys, lo, n, counts. repeat split; auto.
  - rewrite E. apply map_ext. intros b. rewrite <- weight_of_unit. f_equal.
    clear -A. induction A; cbn; [reflexivity|]. f_equal; assumption.
  - rewrite F, Rsum_map_const. f_equal. lra.
Qed.
Print Assumptions C08_get_cum_fmd_counts.
Theorem C08_get_cum_fmd_unbinned : forall xs ws delta pos, decR delta = 0 -> length ws = length xs ->
  exists bins, StronglySorted Rlt bins /\ (forall b, In b bins <-> In b xs) /\
  get_cum_fmd (map Fin xs) delta (Some (map Fin ws)) pos
  = Ok (map Fin bins, map Fin (map (fun b => weight_of (fun y => rle b y) xs ws) bins), map Fin xs).
Proof. intros xs ws delta pos. apply get_cum_fmd_zero. Qed.
Print Assumptions C08_get_cum_fmd_unbinned.
Example C08_example : decR (mkdec 0 0) = 0 /\ length [1; 2] = length [1 / 2; 3].
Proof. split; [unfold decR; simpl; lra|reflexivity]. Qed.

(** ** C73, C169: delta_x = 0 *)
Theorem C169_binning_test_zero_default_refuted : forall x v w,
  no_inf x -> In v (fins x) -> In w (fins x) -> v - w > powerRZ 10 (-14) ->
  binning_test x (mkdec 0 0) (lit 1 15) true = Err ValueError.
Proof. intros x v w H1 H2 H3 H4. apply (binning_test_zero_default x v w); auto. Qed.
Print Assumptions C169_binning_test_zero_default_refuted.
Theorem C73_binning_test_zero : forall x t p range,
  no_inf x -> fins x <> [] -> 0 < t ->
  powerRZ 10 p <= t < powerRZ 10 (p + 1) -> epsR <= powerRZ 10 (p + 1) ->
  (exists v w, In v (fins x) /\ In w (fins x) /\ v - w = range) ->
  (forall v w, In v (fins x) -> In w (fins x) -> v - w <= range) ->
  0 < range -> relR * range <= 4 / 10 * powerRZ 10 (p + 1) ->
  exists b, binning_test x (mkdec 0 0) (Fin t) true = Ok b /\
   (b = false <-> exists z, (p + 1 <= z)%Z /\ powerRZ 10 z < range /\
      binned_within (powerRZ 10 z) (powerRZ 10 (p - 1)) (fins x) /\
      ~ binned_within (powerRZ 10 (z + 1)) (powerRZ 10 (p - 1)) (fins x)).
Proof. intros x t p range H1 H2. intros. apply binning_test_zero; auto. Qed.
Print Assumptions C73_binning_test_zero.
Example C73_example : let x := [Fin 1; Fin (12345 / 10000)] in
  no_inf x /\ In (12345 / 10000) (fins x) /\ In 1 (fins x) /\ 12345 / 10000 - 1 > powerRZ 10 (-14) /\
  powerRZ 10 (-2) <= 1 / 100 < powerRZ 10 (-2 + 1) /\ epsR <= powerRZ 10 (-2 + 1) /\
  relR * (2345 / 10000) <= 4 / 10 * powerRZ 10 (-2 + 1).
Proof.
  cbv zeta. split; [intros v [<-|[<-|[]]]; split; discriminate|].
  split; [right; left; reflexivity|]. split; [left; reflexivity|].
  unfold epsR, relR; simpl. lra.
Qed.
