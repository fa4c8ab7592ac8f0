(** Proofs about get_fmd and get_cum_fmd. *)
From Coq Require Import Reals Lra List Permutation Lia Bool ZArith.
From Verif Require Import Base Num XR RList Binning_model Spec_Binning Binning_proofs BinTest_proofs.
Import ListNotations.
Open Scope R_scope.

Lemma grid_S d lo n : grid d lo (S n) = IZR lo * d :: grid d (lo + 1) n.
Proof.
  unfold grid. cbn [seq map]. rewrite Z.add_0_r. f_equal. rewrite <- seq_shift, map_map.
  apply map_ext. intros i. do 2 f_equal. lia.
Qed.
Lemma grid_length d lo n : length (grid d lo n) = n.
Proof. unfold grid. rewrite map_length, seq_length. reflexivity. Qed.
Lemma grid_in d lo n y : In y (grid d lo n) <-> exists k, (lo <= k < lo + Z.of_nat n)%Z /\ y = IZR k * d.
Proof.
  unfold grid. rewrite in_map_iff. split.
  - intros (i & <- & Hi). apply in_seq in Hi. exists (lo + Z.of_nat i)%Z. split; [lia|reflexivity].
  - intros (k & Hk & ->). exists (Z.to_nat (k - lo)). split; [do 2 f_equal; lia|apply in_seq; lia].
Qed.
Lemma grid_removelast d lo n : removelast (grid d lo (S n)) = grid d lo n.
Proof.
  unfold grid. rewrite seq_S, map_app. cbn [map]. apply removelast_last.
Qed.
Lemma grid_inj d k j : 0 < d -> IZR k * d = IZR j * d -> k = j.
Proof. intros Hd H. apply Rmult_eq_reg_r in H; [|lra]. apply eq_IZR; assumption. Qed.
Lemma skipn_grid d lo n i : skipn i (grid d lo n) = grid d (lo + Z.of_nat i) (n - i).
Proof.
  revert lo n. induction i as [|i IH]; intros lo n.
  - rewrite Z.add_0_r, Nat.sub_0_r. reflexivity.
  - destruct n as [|n]; [reflexivity|]. rewrite grid_S. cbn [skipn]. rewrite IH.
    cbn [Nat.sub]. f_equal. lia.
Qed.
Lemma nth_error_grid d lo n i : (i < n)%nat -> nth_error (grid d lo n) i = Some (IZR (lo + Z.of_nat i) * d).
Proof.
  intros H. unfold grid. rewrite (map_nth_error _ i (seq 0 n) (d := i)); [reflexivity|].
  rewrite nth_error_nth' with (d := 0%nat) by (rewrite seq_length; assumption). rewrite seq_nth; auto.
Qed.

(** *** histogram *)
Lemma in_bin_grid d lo k last : 0 < d ->
  in_bin (Fin (IZR lo * d - d / 2)) (Fin (IZR (lo + 1) * d - d / 2)) last (Fin (IZR k * d))
  = req (IZR k * d) (IZR lo * d).
Proof.
  intros Hd. unfold in_bin. rewrite x_leb. apply eq_true_iff_eq. rewrite andb_true_iff, req_true, rle_true.
  rewrite plus_IZR. destruct (Z.lt_trichotomy k lo) as [L|[E|G]].
  - assert (IZR k + 1 <= IZR lo) by (rewrite <- plus_IZR; apply IZR_le; lia).
    split; [intros [A _]; nra|intros E; apply grid_inj in E; [lia|assumption]].
  - subst k. split; [reflexivity|]. intros _. split; [lra|].
    destruct last; [rewrite x_leb; apply rle_true|rewrite x_ltb; apply rlt_true]; lra.
  - assert (IZR lo + 1 <= IZR k) by (rewrite <- plus_IZR; apply IZR_le; lia).
    split; [|intros E; apply grid_inj in E; [lia|assumption]].
    intros [_ B]. exfalso. destruct last.
    + rewrite x_leb in B. apply rle_true in B. nra.
    + rewrite x_ltb in B. apply rlt_true in B. nra.
Qed.
Lemma histogram_grid d lo n ys ws : 0 < d -> (forall y, In y ys -> exists k, y = IZR k * d) ->
  histogram (map Fin ys) (map Fin ws) (map Fin (map (fun e => e - d / 2) (grid d lo (S n))))
  = map Fin (map (fun b => weight_of (fun y => req y b) ys ws) (grid d lo n)).
Proof.
  intros Hd Hy. revert lo. induction n as [|n IH]; intros lo; [reflexivity|].
  rewrite grid_S. specialize (IH (lo + 1)%Z). rewrite !grid_S in *.
  cbn [map histogram] in *. rewrite IH. f_equal.
  unfold weight_of. rewrite zip_map, filter_map_swap, !map_map. cbn [fst snd].
  rewrite <- (map_map snd Fin). rewrite x_sum. do 3 f_equal.
  apply filter_ext_in. intros [y w] Hp. cbn [fst].
  destruct (Hy y (zip_in_l _ _ _ Hp)) as (k & ->).
  apply (in_bin_grid d lo k); assumption.
Qed.

(** exchanging the sum over bins with the sum over elements *)
Lemma Rsum_grid_indicator d lo n k w : 0 < d ->
  Rsum (map (fun b => if req (IZR k * d) b then w else 0) (grid d lo n))
  = if ((lo <=? k) && (k <? lo + Z.of_nat n))%Z then w else 0.
Proof.
  intros Hd. revert lo. induction n as [|n IH]; intros lo.
  - replace ((lo <=? k) && (k <? lo + Z.of_nat 0))%Z with false; [reflexivity|].
    symmetry. apply andb_false_iff. destruct (Z.leb_spec lo k); [right; apply Z.ltb_ge; lia|left; reflexivity].
  - rewrite grid_S. cbn [map]. rewrite Rsum_cons, IH.
    destruct (req (IZR k * d) (IZR lo * d)) eqn:E.
    + apply req_true in E. apply grid_inj in E; [|assumption]. subst lo.
      replace (k + 1 <=? k)%Z with false by (symmetry; apply Z.leb_gt; lia).
      replace (k <=? k)%Z with true by (symmetry; apply Z.leb_le; lia).
      replace (k <? k + Z.of_nat (S n))%Z with true by (symmetry; apply Z.ltb_lt; lia).
      cbn. lra.
    + apply req_false in E. assert (k <> lo) by (intros ->; auto).
      replace (lo + 1 <=? k)%Z with (lo <=? k)%Z
        by (destruct (Z.leb_spec lo k), (Z.leb_spec (lo + 1) k); auto; lia).
      replace (lo + 1 + Z.of_nat n)%Z with (lo + Z.of_nat (S n))%Z by lia. lra.
Qed.
Lemma Rsum_weights_grid d lo n ys ws : 0 < d -> (forall y, In y ys -> exists k, y = IZR k * d) ->
  (forall y, In y ys -> y < IZR (lo + Z.of_nat n) * d) ->
  Rsum (map (fun b => weight_of (fun y => req y b) ys ws) (grid d lo n))
  = weight_of (fun y => rle (IZR lo * d) y) ys ws.
Proof.
  intros Hd. unfold weight_of. revert ws. induction ys as [|y ys IH]; intros ws Hg Hu.
  - cbn [zip filter map]. rewrite Rsum_map_const. change (Rsum []) with 0. lra.
  - destruct ws as [|w ws].
    { cbn [zip filter map]. rewrite Rsum_map_const. change (Rsum []) with 0. lra. }
    specialize (IH ws (fun z Hz => Hg z (or_intror Hz)) (fun z Hz => Hu z (or_intror Hz))).
    destruct (Hg y (or_introl eq_refl)) as (k & Ek). specialize (Hu y (or_introl eq_refl)). subst y.
    transitivity (Rsum (map (fun b => (if req (IZR k * d) b then w else 0)
       + Rsum (map snd (filter (fun p => req (fst p) b) (zip ys ws)))) (grid d lo n))).
    { apply Rsum_map_ext. intros b _. cbn [zip filter fst].
      destruct (req (IZR k * d) b); cbn [map snd]; rewrite ?Rsum_cons; lra. }
    rewrite Rsum_map_plus, IH, Rsum_grid_indicator by assumption.
    apply Rmult_lt_reg_r in Hu; [|assumption]. apply lt_IZR in Hu.
    replace (k <? lo + Z.of_nat n)%Z with true by (symmetry; apply Z.ltb_lt; lia).
    rewrite andb_true_r. cbn [zip filter fst].
    destruct (Z.leb_spec lo k) as [L|G].
    + rewrite (proj2 (rle_true (IZR lo * d) (IZR k * d))); [cbn [map snd]; rewrite Rsum_cons; lra|].
      apply Rmult_le_compat_r; [lra|]. apply IZR_le; assumption.
    + rewrite (proj2 (rle_false (IZR lo * d) (IZR k * d))); [lra|].
      apply Rmult_lt_compat_r; [lra|]. apply IZR_lt; assumption.
Qed.
Lemma weight_of_all P ys ws : length ys = length ws -> (forall y, In y ys -> P y = true) ->
  weight_of P ys ws = Rsum ws.
Proof.
  intros Hl H. unfold weight_of. rewrite (filter_ext_in _ (fun _ => true)).
  - rewrite filter_true, map_snd_zip by assumption. reflexivity.
  - intros p Hp. apply H. apply zip_in_l in Hp. assumption.
Qed.
Lemma weight_of_unit P ys : weight_of P ys (map (fun _ => 1) ys) = number_of P ys.
Proof.
  unfold weight_of, number_of, count. induction ys as [|y ys IH]; [reflexivity|].
  cbn [map zip filter fst]. destruct (P y); cbn [map snd length]; [|assumption].
  rewrite Rsum_cons, IH, S_INR. lra.
Qed.

(** *** the bins *)
Lemma binR_minmax d a xs : 0 < d -> exists lo n,
  Rminl (binR d a) (map (binR d) xs) = IZR lo * d /\
  Rmaxl (binR d a) (map (binR d) xs) = IZR (lo + Z.of_nat n) * d.
Proof.
  intros Hd. pose proof (Rminl_in (binR d a) (map (binR d) xs)) as I1.
  pose proof (Rmaxl_in (binR d a) (map (binR d) xs)) as I2.
  pose proof (Rminl_le _ _ _ I2) as L.
  change (binR d a :: map (binR d) xs) with (map (binR d) (a :: xs)) in I1, I2.
  apply in_map_iff in I1. apply in_map_iff in I2.
  destruct I1 as (x1 & E1 & _). destruct I2 as (x2 & E2 & _).
  destruct (binR_near d x1 Hd) as (k1 & F1 & _). destruct (binR_near d x2 Hd) as (k2 & F2 & _).
  rewrite F1 in E1. rewrite F2 in E2. rewrite <- E1, <- E2 in L.
  exists k1, (Z.to_nat (k2 - k1)). split; [auto|]. rewrite <- E2. do 2 f_equal.
  apply Rmult_le_reg_r in L; [|assumption]. apply le_IZR in L. lia.
Qed.
Lemma arange_grid d lo n : 0 < d ->
  np_arange (Fin (IZR lo * d)) (Fin (IZR (lo + Z.of_nat n) * d + 3 / 2 * d)) (Fin d)
  = Ok (map Fin (grid d lo (S (S n)))).
Proof.
  intros Hd. unfold np_arange. rewrite x_sub, x_div by lra. unfold nceilZ. rewrite x_opp, x_floorZ.
  assert (E : Int_part (- ((IZR (lo + Z.of_nat n) * d + 3 / 2 * d - IZR lo * d) / d)) = (- Z.of_nat n - 2)%Z).
  { apply Int_part_unique. rewrite plus_IZR, minus_IZR, opp_IZR.
    replace (((IZR lo + IZR (Z.of_nat n)) * d + 3 / 2 * d - IZR lo * d) / d) with (IZR (Z.of_nat n) + 3 / 2) by (field; lra).
    lra. }
  rewrite E. replace (Z.to_nat (- (- Z.of_nat n - 2))) with (S (S n)) by lia.
  f_equal. unfold grid. rewrite map_map. apply map_ext. intros i.
  rewrite x_ofnat, x_add, x_sub, x_mul, x_add. f_equal. rewrite plus_IZR, INR_IZR_INZ. lra.
Qed.

Lemma get_fmd_R xs delta ws pos : xs <> [] -> epsR <= decR delta -> length ws = length xs ->
  exists lo n,
    is_min (IZR lo * decR delta) (map (binR (decR delta)) xs) /\
    is_max (IZR (lo + Z.of_nat n) * decR delta) (map (binR (decR delta)) xs) /\
    let bins := grid (decR delta) lo (S n) in
    let ys := map (binR (decR delta)) xs in
    let counts := map (fun b => weight_of (fun y => req y b) ys ws) bins in
    get_fmd (map Fin xs) delta (Some (map Fin ws)) pos =
      match pos with
      | Center => Ok (map Fin bins, map Fin counts, map Fin ys)
      | LeftEdge => Ok (map Fin (map (fun b => b - decR delta / 2) bins), map Fin counts, map Fin ys)
      | OtherPos => Err AssertionError
      end.
Proof.
  intros Hne He Hl. pose proof epsR_bounds as Eb. destruct xs as [|a xs]; [congruence|].
  set (d := decR delta) in *. assert (Hd : 0 < d) by lra.
  destruct (binR_minmax d a xs Hd) as (lo & n & Emin & Emax). exists lo, n.
  split; [|split].
  - cbn [map]. rewrite <- Emin. split; [apply Rminl_in|intros v Hv; apply Rminl_le; assumption].
  - cbn [map]. rewrite <- Emax. split; [apply Rmaxl_in|intros v Hv; apply Rmaxl_ge; assumption].
  - cbv zeta. unfold get_fmd. rewrite x_dec_val, x_zero, x_leb. fold d.
    rewrite (proj2 (rle_false d 0)) by lra.
    rewrite bin_to_precision_fin by assumption. cbn [rbind]. fold d. cbn [map].
    rewrite x_amin, x_amax, Emin, Emax. rewrite x_ofZ, x_two, x_div by lra. rewrite x_mul, x_add.
    replace (IZR 3 / 2 * d) with (3 / 2 * d) by reflexivity.
    rewrite arange_grid by assumption. cbn [rbind].
    rewrite bin_to_precision_fin by assumption. cbn [rbind]. fold d.
    assert (Eg : map (binR d) (grid d lo (S (S n))) = grid d lo (S (S n))).
    { transitivity (map (fun y => y) (grid d lo (S (S n)))); [|apply map_id].
      apply map_ext_in. intros y Hy. apply grid_in in Hy. destruct Hy as (k & _ & ->). apply binR_grid; assumption. }
    rewrite Eg.
    assert (Ebins : removelast (map Fin (grid d lo (S (S n)))) = map Fin (grid d lo (S n))).
    { unfold grid. rewrite seq_S, map_app, map_app. cbn [map]. apply removelast_last. }
    rewrite Ebins.
    assert (Eedges : map (fun e : xr => nsub e (ndiv (Fin d) (Fin 2))) (map Fin (grid d lo (S (S n))))
                     = map Fin (map (fun e => e - d / 2) (grid d lo (S (S n))))).
    { rewrite !map_map. apply map_ext. intros e. rewrite x_div by lra. reflexivity. }
    rewrite Eedges.
    replace (length (map Fin ws) =? length (Fin (binR d a) :: map Fin (map (binR d) xs)))%nat with true
      by (symmetry; apply Nat.eqb_eq; cbn [length]; rewrite !map_length; cbn [length] in Hl; lia).
    cbn [rbind].
    change (Fin (binR d a) :: map Fin (map (binR d) xs)) with (map Fin (map (binR d) (a :: xs))).
    rewrite (histogram_grid d lo (S n) (map (binR d) (a :: xs)) ws Hd).
    2:{ intros y Hy. apply in_map_iff in Hy. destruct Hy as (x & <- & _).
        destruct (binR_near d x Hd) as (k & E & _). exists k; assumption. }
    destruct pos; try reflexivity.
    f_equal. f_equal. f_equal. rewrite !map_map. apply map_ext. intros e. rewrite x_div by lra. reflexivity.
Qed.
Lemma get_fmd_None xs delta pos : (* unweighted = unit weights *)
  get_fmd (map Fin xs) delta None pos = get_fmd (map Fin xs) delta (Some (map Fin (map (fun _ => 1) xs))) pos.
Proof.
  unfold get_fmd. destruct (nleb (dec_val delta) zero); [reflexivity|].
  unfold bin_to_precision at 1 3. destruct (nltb (dec_val delta) EPSILON); [reflexivity|].
  cbn [rbind]. destruct xs as [|a xs]; [reflexivity|].
  cbn [map]. destruct (np_arange _ _ _) as [ar|e]; [|reflexivity]. cbn [rbind].
  destruct (bin_to_precision (Some ar) delta); [|reflexivity]. cbn [rbind].
  replace (length (Fin 1 :: map Fin (map (fun _ : R => 1%R) xs)) =?
           length (bin_elem delta (Fin a) :: map (bin_elem delta) (map Fin xs)))%nat with true
    by (symmetry; apply Nat.eqb_eq; cbn [length]; rewrite !map_length; reflexivity).
  cbn [rbind]. replace (unit_weights (bin_elem delta (Fin a) :: map (bin_elem delta) (map Fin xs)))
    with (Fin 1 :: map Fin (map (fun _ : R => 1%R) xs)); [reflexivity|].
  unfold unit_weights. cbn [map]. rewrite !map_map. reflexivity.
Qed.
Lemma fmd_total d lo n ys ws : 0 < d -> length ys = length ws ->
  (forall y, In y ys -> exists k, y = IZR k * d) ->
  is_min (IZR lo * d) ys -> is_max (IZR (lo + Z.of_nat n) * d) ys ->
  Rsum (map (fun b => weight_of (fun y => req y b) ys ws) (grid d lo (S n))) = Rsum ws.
Proof.
  intros Hd Hl Hg [_ Hmin] [_ Hmax]. rewrite Rsum_weights_grid; auto.
  - apply weight_of_all; auto. intros y Hy. apply rle_true. auto.
  - intros y Hy. specialize (Hmax y Hy). replace (lo + Z.of_nat (S n))%Z with (lo + Z.of_nat n + 1)%Z by lia.
    rewrite (plus_IZR _ 1). lra.
Qed.

(** *** cumulative counts *)
Fixpoint prefix_from (acc : R) (l : list R) : list R :=
  match l with [] => [] | x :: t => (acc + x) :: prefix_from (acc + x) t end.
Lemma cumsum_from_fin acc l : cumsum_from (Fin acc) (map Fin l) = map Fin (prefix_from acc l).
Proof. revert acc; induction l as [|a l IH]; intros acc; cbn [map cumsum_from prefix_from]; [reflexivity|]. rewrite x_add, IH. reflexivity. Qed.
Lemma np_cumsum_fin l : np_cumsum (map Fin l) = map Fin (prefix_from 0 l).
Proof.
  destruct l as [|a l]; [reflexivity|]. cbn [map np_cumsum prefix_from]. rewrite Rplus_0_l, cumsum_from_fin. reflexivity.
Qed.
Fixpoint suffix_sums (l : list R) : list R :=
  match l with [] => [] | x :: t => Rsum (x :: t) :: suffix_sums t end.
Lemma prefix_app acc l x : prefix_from acc (l ++ [x]) = prefix_from acc l ++ [acc + Rsum l + x].
Proof.
  revert acc; induction l as [|a l IH]; intros acc; cbn [app prefix_from].
  - change (Rsum []) with 0. do 2 f_equal. lra.
  - rewrite IH, Rsum_cons. do 3 f_equal. lra.
Qed.
Lemma rev_prefix l : rev (prefix_from 0 (rev l)) = suffix_sums l.
Proof.
  induction l as [|a l IH]; [reflexivity|]. cbn [rev suffix_sums]. rewrite prefix_app, rev_app_distr, IH. cbn.
  f_equal. rewrite (Rsum_perm (rev l) l) by (symmetry; apply Permutation_rev). unfold Rsum; cbn; lra.
Qed.
Lemma suffix_sums_nth l i : (i < length l)%nat -> nth_error (suffix_sums l) i = Some (Rsum (skipn i l)).
Proof.
  revert i; induction l as [|a l IH]; intros i Hi; cbn in Hi; [lia|].
  destruct i as [|i]; [reflexivity|]. cbn [suffix_sums nth_error skipn]. apply IH. lia.
Qed.
Lemma suffix_sums_map {A} (f : A -> R) l : suffix_sums (map f l) = map (fun i => Rsum (map f (skipn i l))) (seq 0 (length l)).
Proof.
  induction l as [|a l IH]; [reflexivity|]. cbn [map suffix_sums length seq skipn]. f_equal.
  rewrite IH, <- seq_shift, map_map. reflexivity.
Qed.
Lemma cum_grid d lo n ys ws : 0 < d -> (forall y, In y ys -> exists k, y = IZR k * d) ->
  is_max (IZR (lo + Z.of_nat n) * d) ys ->
  suffix_sums (map (fun b => weight_of (fun y => req y b) ys ws) (grid d lo (S n)))
  = map (fun b => weight_of (fun y => rle b y) ys ws) (grid d lo (S n)).
Proof.
  intros Hd Hg [_ Hmax]. rewrite suffix_sums_map, grid_length.
  unfold grid at 2. rewrite map_map. apply map_ext_in. intros i Hi. apply in_seq in Hi.
  rewrite skipn_grid. rewrite Rsum_weights_grid; auto.
  intros y Hy. specialize (Hmax y Hy).
  replace (lo + Z.of_nat i + Z.of_nat (S n - i))%Z with (lo + Z.of_nat n + 1)%Z by lia.
  rewrite (plus_IZR _ 1). lra.
Qed.

Lemma cum_tail l : rev (np_cumsum (rev (map Fin l))) = map Fin (suffix_sums l).
Proof. rewrite <- map_rev, np_cumsum_fin, <- map_rev, rev_prefix. reflexivity. Qed.

Lemma get_cum_fmd_R xs delta ws pos : xs <> [] -> epsR <= decR delta -> length ws = length xs ->
  exists lo n,
    is_min (IZR lo * decR delta) (map (binR (decR delta)) xs) /\
    is_max (IZR (lo + Z.of_nat n) * decR delta) (map (binR (decR delta)) xs) /\
    let bins := grid (decR delta) lo (S n) in
    let ys := map (binR (decR delta)) xs in
    let counts := map (fun b => weight_of (fun y => rle b y) ys ws) bins in
    get_cum_fmd (map Fin xs) delta (Some (map Fin ws)) pos =
      match pos with
      | Center => Ok (map Fin bins, map Fin counts, map Fin ys)
      | LeftEdge => Ok (map Fin (map (fun b => b - decR delta / 2) bins), map Fin counts, map Fin ys)
      | OtherPos => Err AssertionError
      end.
Proof.
  intros Hne He Hl. pose proof epsR_bounds as Eb.
  destruct (get_fmd_R xs delta ws pos Hne He Hl) as (lo & n & Hmin & Hmax & E). exists lo, n.
  split; [assumption|split; [assumption|]]. cbv zeta in *. unfold get_cum_fmd.
  rewrite x_dec_val, x_zero, x_eqb, (proj2 (req_false (decR delta) 0)) by lra. rewrite E.
  assert (Hg : forall y, In y (map (binR (decR delta)) xs) -> exists k, y = IZR k * decR delta).
  { intros y Hy. apply in_map_iff in Hy. destruct Hy as (x & <- & _).
    destruct (binR_near (decR delta) x) as (k & F & _); [lra|]. exists k; assumption. }
  destruct pos; cbn [rbind]; try reflexivity; rewrite cum_tail, cum_grid; auto; lra.
Qed.
Lemma get_cum_fmd_None xs delta pos :
  get_cum_fmd (map Fin xs) delta None pos = get_cum_fmd (map Fin xs) delta (Some (map Fin (map (fun _ => 1) xs))) pos.
Proof.
  unfold get_cum_fmd. rewrite get_fmd_None. destruct (neqb (dec_val delta) zero); [|reflexivity].
  rewrite !map_length, Nat.eqb_refl. cbn [rbind].
  replace (unit_weights (map Fin xs)) with (map Fin (map (fun _ : R => 1%R) xs)); [reflexivity|].
  unfold unit_weights. rewrite !map_map. reflexivity.
Qed.

(** *** fmd_bin = 0: np.unique *)
From Coq Require Import Sorted.
From Verif Require Import SortLib.
Lemma insert_by_map {A B} (f : A -> B) leA leB x l : (forall a b, leB (f a) (f b) = leA a b) ->
  insert_by leB (f x) (map f l) = map f (insert_by leA x l).
Proof. intros H. induction l as [|y t IH]; cbn; [reflexivity|]. rewrite H. destruct (leA x y); cbn; [reflexivity|]. rewrite IH; reflexivity. Qed.
Lemma isort_map {A B} (f : A -> B) leA leB l : (forall a b, leB (f a) (f b) = leA a b) ->
  isort leB (map f l) = map f (isort leA l).
Proof. intros H. induction l as [|y t IH]; cbn; [reflexivity|]. rewrite IH. apply insert_by_map; assumption. Qed.
Fixpoint dedupR (l : list R) : list R :=
  match l with x :: ((y :: _) as t) => if req x y then dedupR t else x :: dedupR t | _ => l end.
Definition uniqR (l : list R) : list R := dedupR (isort rle l).
Lemma np_unique_fin l : np_unique (map Fin l) = map Fin (uniqR l).
Proof.
  unfold np_unique, uniqR. rewrite (isort_map Fin rle) by reflexivity. generalize (isort rle l) as k. intros k.
  induction k as [|x k IH]; [reflexivity|]. destruct k as [|y k]; [reflexivity|].
  cbn [map dedup_adj dedupR] in *. rewrite x_eqb. destruct (req x y); [exact IH|]. cbn [map]. rewrite IH. reflexivity.
Qed.
Lemma dedupR_in l y : In y (dedupR l) <-> In y l.
Proof.
  induction l as [|x k IH]; [tauto|]. destruct k as [|z k]; [tauto|]. cbn [dedupR].
  destruct (req x z) eqn:E.
  - apply req_true in E. subst z. rewrite IH. cbn. tauto.
  - cbn [In] in *. rewrite IH. tauto.
Qed.
Lemma dedupR_sorted l : StronglySorted Rle l -> StronglySorted Rlt (dedupR l).
Proof.
  intros S. induction S as [|x k Hs IH Hf]; [constructor|]. destruct k as [|z k]; [constructor; constructor|].
  cbn [dedupR]. destruct (req x z) eqn:E; [exact IH|]. apply req_false in E.
  constructor; [exact IH|]. rewrite Forall_forall in *. intros y Hy.
  apply (proj1 (dedupR_in (z :: k) y)) in Hy. inversion Hs as [|? ? Hs' Hf']; subst. rewrite Forall_forall in Hf'.
  assert (x <= z) by (apply Hf; left; reflexivity).
  destruct Hy as [<-|Hy]; [lra|]. specialize (Hf' y Hy). lra.
Qed.
Lemma isort_rle_sorted l : StronglySorted Rle (isort rle l).
Proof.
  assert (H : StronglySorted (leP rle) (isort rle l)).
  { apply isort_sorted.
    - intros a b. rewrite !rle_true. lra.
    - intros a b c. rewrite !rle_true. lra. }
  eapply StronglySorted_impl; [|exact H]. intros x y Hy. apply rle_true. exact Hy.
Qed.
Lemma uniqR_in l y : In y (uniqR l) <-> In y l.
Proof.
  unfold uniqR. rewrite dedupR_in. split; intros H.
  - eapply Permutation_in; [apply Permutation_sym, isort_perm|exact H].
  - eapply Permutation_in; [apply isort_perm|exact H].
Qed.
Lemma uniqR_sorted l : StronglySorted Rlt (uniqR l).
Proof. apply dedupR_sorted, isort_rle_sorted. Qed.

(** sum over all distinct values from some position on = weight at or above that value *)
Lemma Rsum_indicator_sorted b u y w : StronglySorted Rlt (b :: u) -> (y < b \/ In y (b :: u)) ->
  Rsum (map (fun c => if req y c then w else 0) (b :: u)) = if rle b y then w else 0.
Proof.
  assert (Z : forall u y, (forall c, In c u -> y <> c) -> Rsum (map (fun c => if req y c then w else 0) u) = 0).
  { intros v z H. rewrite (Rsum_map_ext _ (fun _ => 0)); [rewrite Rsum_map_const; lra|].
    intros c Hc. rewrite (proj2 (req_false z c)); auto. }
  revert b. induction u as [|c u IH]; intros b Hs Hy.
  - cbn [map]. rewrite Rsum_cons. change (Rsum []) with 0. destruct Hy as [Hy|[<-|[]]].
    + rewrite (proj2 (req_false y b)), (proj2 (rle_false b y)) by lra. lra.
    + rewrite (proj2 (req_true b b)), (proj2 (rle_true b b)) by lra. lra.
  - inversion Hs as [|? ? Hs' Hf]; subst. rewrite Forall_forall in Hf. cbn [map]. rewrite Rsum_cons.
    destruct Hy as [Hy|[<-|Hy]].
    + rewrite (proj2 (req_false y b)), (proj2 (rle_false b y)) by lra.
      change ((if req y c then w else 0) :: map (fun c0 => if req y c0 then w else 0) u)
        with (map (fun c0 => if req y c0 then w else 0) (c :: u)).
      rewrite Z; [lra|]. intros c0 Hc0. specialize (Hf c0 Hc0). lra.
    + rewrite (proj2 (req_true b b)), (proj2 (rle_true b b)) by lra.
      change ((if req b c then w else 0) :: map (fun c0 => if req b c0 then w else 0) u)
        with (map (fun c0 => if req b c0 then w else 0) (c :: u)).
      rewrite Z; [lra|]. intros c0 Hc0. specialize (Hf c0 Hc0). lra.
    + specialize (Hf y Hy) as Hby. rewrite (proj2 (req_false y b)), (proj2 (rle_true b y)) by lra.
      change ((if req y c then w else 0) :: map (fun c0 => if req y c0 then w else 0) u)
        with (map (fun c0 => if req y c0 then w else 0) (c :: u)).
      rewrite IH; auto. inversion Hs' as [|? ? _ Hf']; subst. rewrite Forall_forall in Hf'.
      assert (c <= y) by (destruct Hy as [<-|Hy]; [lra|specialize (Hf' y Hy); lra]).
      rewrite (proj2 (rle_true c y)) by assumption. lra.
Qed.
Lemma Rsum_weights_sorted b u ys ws : StronglySorted Rlt (b :: u) ->
  (forall y, In y ys -> y < b \/ In y (b :: u)) ->
  Rsum (map (fun c => weight_of (fun y => req y c) ys ws) (b :: u)) = weight_of (fun y => rle b y) ys ws.
Proof.
  intros Hs. unfold weight_of. revert ws. induction ys as [|y ys IH]; intros ws Hy.
  - cbn [zip filter]. rewrite Rsum_map_const. cbn [map]. change (Rsum []) with 0. lra.
  - destruct ws as [|w ws].
    { cbn [zip filter]. rewrite Rsum_map_const. cbn [map]. change (Rsum []) with 0. lra. }
    transitivity (Rsum (map (fun c => (if req y c then w else 0)
       + Rsum (map snd (filter (fun p => req (fst p) c) (zip ys ws)))) (b :: u))).
    { apply Rsum_map_ext. intros c _. cbn [zip filter fst].
      destruct (req y c); cbn [map snd]; rewrite ?Rsum_cons; lra. }
    rewrite Rsum_map_plus, IH by (intros z Hz; apply Hy; right; exact Hz).
    rewrite Rsum_indicator_sorted by (auto; apply Hy; left; reflexivity).
    cbn [zip filter fst]. destruct (rle b y); cbn [map snd]; rewrite ?Rsum_cons; lra.
Qed.
Lemma suffix_weights_sorted u ys ws : StronglySorted Rlt u ->
  (forall y, In y ys -> In y u \/ forall c, In c u -> y < c) ->
  suffix_sums (map (fun c => weight_of (fun y => req y c) ys ws) u)
  = map (fun b => weight_of (fun y => rle b y) ys ws) u.
Proof.
  intros S. induction S as [|b u Hs IH Hf]; intros Hy; [reflexivity|].
  cbn [map suffix_sums]. f_equal.
  - change (weight_of (fun y => req y b) ys ws :: map (fun c => weight_of (fun y => req y c) ys ws) u)
      with (map (fun c => weight_of (fun y => req y c) ys ws) (b :: u)).
    apply Rsum_weights_sorted; [constructor; assumption|].
    intros y Hin. destruct (Hy y Hin) as [H|H]; [right; exact H|left; apply H; left; reflexivity].
  - apply IH. intros y Hin. rewrite Forall_forall in Hf. destruct (Hy y Hin) as [[<-|H]|H].
    + right. intros c Hc. apply Hf; exact Hc.
    + left; exact H.
    + right. intros c Hc. apply H. right; exact Hc.
Qed.
Lemma get_cum_fmd_zero xs delta ws pos : decR delta = 0 -> length ws = length xs ->
  exists bins, StronglySorted Rlt bins /\ (forall b, In b bins <-> In b xs) /\
  get_cum_fmd (map Fin xs) delta (Some (map Fin ws)) pos
  = Ok (map Fin bins, map Fin (map (fun b => weight_of (fun y => rle b y) xs ws) bins), map Fin xs).
Proof.
  intros Hd Hl. exists (uniqR xs). split; [apply uniqR_sorted|]. split; [intros; apply uniqR_in|].
  unfold get_cum_fmd. rewrite x_dec_val, x_zero, x_eqb, (proj2 (req_true _ _) Hd).
  rewrite !map_length, Hl, Nat.eqb_refl. cbn [rbind]. rewrite np_unique_fin.
  assert (E : map (fun b : xr => nsum (map snd (filter (fun p : xr * xr => neqb (fst p) b)
                (zip (map Fin xs) (map Fin ws))))) (map Fin (uniqR xs))
            = map Fin (map (fun c => weight_of (fun y => req y c) xs ws) (uniqR xs))).
  { rewrite !map_map. apply map_ext. intros b. unfold weight_of.
    rewrite zip_map, filter_map_swap, map_map. cbn [fst snd]. rewrite <- (map_map snd Fin), x_sum. reflexivity. }
  rewrite E, cum_tail, suffix_weights_sorted; [reflexivity|apply uniqR_sorted|].
  intros y Hy. left. apply uniqR_in. exact Hy.
Qed.

(** *** order independence *)
Lemma weight_of_perm P ys ws ys' ws' : Permutation (zip ys ws) (zip ys' ws') ->
  weight_of P ys ws = weight_of P ys' ws'.
Proof. intros H. unfold weight_of. apply Rsum_perm, Permutation_map, filter_perm. exact H. Qed.
Lemma zip_map_l {A B C} (f : A -> B) (xs : list A) (ws : list C) :
  zip (map f xs) ws = map (fun p => (f (fst p), snd p)) (zip xs ws).
Proof. rewrite <- (map_id ws) at 1. rewrite zip_map. reflexivity. Qed.
Lemma zip_perm_fst {A B} (xs xs' : list A) (ws ws' : list B) : length ws = length xs -> length ws' = length xs' ->
  Permutation (zip xs ws) (zip xs' ws') -> Permutation xs xs'.
Proof. intros H1 H2 P. rewrite <- (map_fst_zip xs ws), <- (map_fst_zip xs' ws') by auto. apply Permutation_map; exact P. Qed.
Lemma is_min_perm m l l' : Permutation l l' -> is_min m l -> is_min m l'.
Proof.
  intros P [A B]. split; [eapply Permutation_in; eassumption|].
  intros v Hv. apply B. eapply Permutation_in; [apply Permutation_sym; exact P|exact Hv].
Qed.
Lemma is_max_perm m l l' : Permutation l l' -> is_max m l -> is_max m l'.
Proof.
  intros P [A B]. split; [eapply Permutation_in; eassumption|].
  intros v Hv. apply B. eapply Permutation_in; [apply Permutation_sym; exact P|exact Hv].
Qed.
Lemma is_max_unique m m' vs : is_max m vs -> is_max m' vs -> m = m'.
Proof. intros [A B] [C D]. apply Rle_antisym; auto. Qed.
Lemma get_fmd_perm xs xs' delta ws ws' pos : xs <> [] -> epsR <= decR delta ->
  length ws = length xs -> length ws' = length xs' -> Permutation (zip xs ws) (zip xs' ws') ->
  rmap fst (get_fmd (map Fin xs) delta (Some (map Fin ws)) pos)
  = rmap fst (get_fmd (map Fin xs') delta (Some (map Fin ws')) pos).
Proof.
  intros Hne He H1 H2 P. pose proof epsR_bounds as Eb.
  pose proof (zip_perm_fst _ _ _ _ H1 H2 P) as Px.
  assert (Hne' : xs' <> []) by (intros ->; apply Permutation_sym, Permutation_nil in Px; auto).
  destruct (get_fmd_R xs delta ws pos Hne He H1) as (lo & n & Hmin & Hmax & E).
  destruct (get_fmd_R xs' delta ws' pos Hne' He H2) as (lo' & n' & Hmin' & Hmax' & E').
  cbv zeta in *. rewrite E, E'. set (d := decR delta) in *.
  assert (Py : Permutation (map (binR d) xs') (map (binR d) xs)) by (apply Permutation_map, Permutation_sym; exact Px).
  apply (is_min_perm _ _ _ Py) in Hmin'. apply (is_max_perm _ _ _ Py) in Hmax'.
  assert (lo = lo') by (apply (grid_inj d); [lra|eapply is_min_unique; eassumption]). subst lo'.
  assert (lo + Z.of_nat n = lo + Z.of_nat n')%Z by (apply (grid_inj d); [lra|eapply is_max_unique; eassumption]).
  assert (n = n') by lia. subst n'.
  assert (W : forall b, weight_of (fun y => req y b) (map (binR d) xs) ws = weight_of (fun y => req y b) (map (binR d) xs') ws').
  { intros b. apply weight_of_perm. rewrite !zip_map_l. apply Permutation_map; exact P. }
  assert (Wm : map (fun b => weight_of (fun y => req y b) (map (binR d) xs) ws) (grid d lo (S n))
             = map (fun b => weight_of (fun y => req y b) (map (binR d) xs') ws') (grid d lo (S n)))
    by (apply map_ext; exact W).
  destruct pos; cbn [rmap fst]; rewrite ?Wm; reflexivity.
Qed.
Lemma weight_of_anti b c ys ws : (forall w, In w ws -> 0 <= w) -> b <= c ->
  weight_of (fun y => rle c y) ys ws <= weight_of (fun y => rle b y) ys ws.
Proof.
  intros Hw Hbc. unfold weight_of. revert ws Hw. induction ys as [|y ys IH]; intros [|w ws] Hw; cbn [zip filter map]; try lra.
  cbn [fst]. assert (0 <= w) by (apply Hw; left; reflexivity).
  specialize (IH ws (fun w' Hw' => Hw w' (or_intror Hw'))).
  destruct (rle c y) eqn:E1.
  - apply rle_true in E1. rewrite (proj2 (rle_true b y)) by lra. cbn [map snd]. rewrite !Rsum_cons. lra.
  - destruct (rle b y); cbn [map snd]; rewrite ?Rsum_cons; lra.
Qed.
