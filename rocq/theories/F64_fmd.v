(** * The frequency-magnitude distribution in double precision *)
From Coq Require Import ZArith List Bool Reals Lia Lra Psatz Permutation.
From Flocq Require Import Core.
From Verif Require Import Base Num XR RList Binning_model Openquake_model F64 Spec_F64 F64_proofs F64_test F64_select.
Import ListNotations.
Open Scope R_scope.

(** ** sums of integers are exact *)
Lemma fl_nat n : (Z.of_nat n <= 2 ^ 53)%Z -> fl (INR n) = Fin (INR n).
Proof.
  intros H. rewrite INR_IZR_INZ. rewrite fl_fin.
  - rewrite rnd_int by lia. reflexivity.
  - rewrite Rabs_pos_eq by (apply IZR_le; lia). apply Rle_trans with (IZR (2 ^ 53)); [apply IZR_le; exact H|]. unfold big. change (2 ^ 53)%Z with 9007199254740992%Z. lra.
Qed.
Lemma total_ones t : (forall x, In x (leaves t) -> x = Fin 1) -> (Z.of_nat (length (leaves t)) <= 2 ^ 53)%Z -> total t = Fin (INR (length (leaves t))).
Proof.
  induction t as [x|l IHl r IHr]; cbn [leaves total length]; intros A B.
  - rewrite (A x) by (left; reflexivity). reflexivity.
  - rewrite app_length in *. rewrite IHl, IHr; [|intros x Hx; apply A, in_or_app; right; exact Hx|lia|intros x Hx; apply A, in_or_app; left; exact Hx|lia].
    cbn [xadd fix64]. rewrite <- plus_INR. apply fl_nat. exact B.
Qed.
Lemma sum_ones (L : libm) n : sums_in_some_order L -> (Z.of_nat n <= 2 ^ 53)%Z -> l_sum L (repeat (Fin 1) n) = Fin (INR n).
Proof.
  intros [Z S] H. destruct n as [|n]; [exact Z|]. destruct (S (repeat (Fin 1) (Datatypes.S n)) ltac:(discriminate)) as (t & P & ->).
  assert (E : length (leaves t) = Datatypes.S n) by (rewrite (Permutation_length P); apply repeat_length).
  rewrite total_ones; [rewrite E; reflexivity| |rewrite E; exact H].
  intros x Hx. apply (Permutation_in _ P) in Hx. apply repeat_spec in Hx. exact Hx.
Qed.

(** ** indices *)
Lemma filter_le {A} (f : A -> bool) l : (length (filter f l) <= length l)%nat.
Proof. induction l as [|a l IH]; cbn [filter length]; [lia|]. destruct (f a); cbn [length]; lia. Qed.
Lemma zseq_S lo n : zseq lo (S n) = lo :: zseq (lo + 1) n.
Proof. unfold zseq. cbn [seq map]. rewrite Z.add_0_r. f_equal. rewrite <- seq_shift, map_map. apply map_ext. intros i. lia. Qed.
Lemma zseq_removelast lo n : removelast (zseq lo (S n)) = zseq lo n.
Proof. unfold zseq. rewrite seq_S, map_app. cbn [map]. apply removelast_last. Qed.
Section Fmd.
  Context (L : libm) (j : Z) (d : nat) (W : usual_width j d).
  #[local] Instance FI7 : Num xr := F64 L.
  Let w := widthR j d.
  Let D K := decimal j d K.
  Notation ok := (moderate j d).

  (** minimum and maximum *)
  Lemma D_mono K K' : (K <= K')%Z -> D K <= D K'.
  Proof. intros H. apply rnd_mono. pose proof (W_bounds j d W). apply IZR_le in H. nra. Qed.
  Fixpoint zmin (x : Z) (l : list Z) : Z := match l with [] => x | y :: t => zmin (Z.min x y) t end.
  Fixpoint zmax (x : Z) (l : list Z) : Z := match l with [] => x | y :: t => zmax (Z.max x y) t end.
  Lemma zmin_le l : forall x y, x = y \/ In y l -> (zmin x l <= y)%Z.
  Proof. induction l as [|a l IH]; intros x y; cbn [zmin In]; [intros [->|[]]; lia|]. intros [->|[->|H]]; [pose proof (IH (Z.min y a) _ (or_introl eq_refl)); lia|pose proof (IH (Z.min x y) _ (or_introl eq_refl)); lia|apply IH; auto]. Qed.
  Lemma zmax_ge l : forall x y, x = y \/ In y l -> (y <= zmax x l)%Z.
  Proof. induction l as [|a l IH]; intros x y; cbn [zmax In]; [intros [->|[]]; lia|]. intros [->|[->|H]]; [pose proof (IH (Z.max y a) _ (or_introl eq_refl)); lia|pose proof (IH (Z.max x y) _ (or_introl eq_refl)); lia|apply IH; auto]. Qed.
  Lemma zmin_in l : forall x, In (zmin x l) (x :: l).
  Proof. induction l as [|a l IH]; intros x; cbn [zmin]; [left; reflexivity|]. destruct (IH (Z.min x a)) as [E|E]; [|right; right; exact E]. rewrite <- E. destruct (Z.min_spec x a) as [[_ ->]|[_ ->]]; cbn; auto. Qed.
  Lemma zmax_in l : forall x, In (zmax x l) (x :: l).
  Proof. induction l as [|a l IH]; intros x; cbn [zmax]; [left; reflexivity|]. destruct (IH (Z.max x a)) as [E|E]; [|right; right; exact E]. rewrite <- E. destruct (Z.max_spec x a) as [[_ ->]|[_ ->]]; cbn; auto. Qed.
  Lemma amin_D K l : amin (Fin (D K)) (map (fun k => Fin (D k)) l) = Fin (D (zmin K l)).
  Proof.
    change (@amin xr XR (Fin (D K)) (map (fun k => Fin (D k)) l) = Fin (D (zmin K l))). rewrite <- (map_map D Fin). rewrite x_amin. f_equal.
    revert K. unfold Rminl. induction l as [|a l IH]; intros K; [reflexivity|]. cbn [map fold_left zmin]. rewrite <- IH. f_equal.
    destruct (Z.min_spec K a) as [[H ->]|[H ->]]; [apply Rmin_left|apply Rmin_right]; apply D_mono; lia.
  Qed.
  Lemma amax_D K l : amax (Fin (D K)) (map (fun k => Fin (D k)) l) = Fin (D (zmax K l)).
  Proof.
    change (@amax xr XR (Fin (D K)) (map (fun k => Fin (D k)) l) = Fin (D (zmax K l))). rewrite <- (map_map D Fin). rewrite x_amax. f_equal.
    revert K. unfold Rmaxl. induction l as [|a l IH]; intros K; [reflexivity|]. cbn [map fold_left zmax]. rewrite <- IH. f_equal.
    destruct (Z.max_spec K a) as [[H ->]|[H ->]]; [apply Rmax_right|apply Rmax_left]; apply D_mono; lia.
  Qed.

  (** the bins of np.arange *)
  Lemma arange_bins k0 k1 : ok k0 -> ok k1 -> (k0 <= k1)%Z ->
    exists ar, np_arange (Fin (D k0)) (nadd (Fin (D k1)) (nmul (ndiv (ofZ 3) two) (dec_val (width j d)))) (dec_val (width j d)) = Ok ar /\
      map (bin_elem (width j d)) ar = map (fun k => Fin (D k)) (zseq k0 (Z.to_nat (k1 - k0 + 2))).
  Proof.
    intros H0 H1 Le. pose proof (dec_near j d k0 H0) as N0. pose proof (dec_near j d k1 H1) as N1. fold w in N0, N1. fold (D k0) in N0. fold (D k1) in N1.
    unfold moderate in H0, H1. fold w in H0, H1. pose proof (W_bounds j d W) as B. fold w in B.
    assert (Lr : IZR k0 <= IZR k1) by (apply IZR_le; exact Le).
    unfold FI7, two. rewrite f_dec by exact W. fold w. rewrite !f_ofZ by (cbn; lia).
    rewrite f_div by (lra || (unfold big; apply Rabs_le; lra)).
    replace (rnd (3 / 2)) with (3 / 2).
    2:{ symmetry. apply rnd_id, generic_format_FLT. exists (Float radix2 3 (-1)); cbn [Fnum Fexp]; [unfold F2R; cbn; lra|cbn; lia|lia]. }
    pose proof (rnd_err_le w 10 ltac:(rewrite Rabs_pos_eq; lra)) as Ew. set (st := rnd w) in *. apply Rabs_le_inv in Ew, N0, N1, H0, H1. unfold u, h in Ew.
    assert (Est : - / 100000000000000 <= st - w <= / 100000000000000) by lra. clear Ew.
    rewrite f_mul by (unfold big; apply Rabs_le; lra).
    pose proof (rnd_err_le (3 / 2 * st) 16 ltac:(apply Rabs_le; lra)) as E1. set (p := rnd (3 / 2 * st)) in *. apply Rabs_le_inv in E1. unfold u, h in E1.
    rewrite f_add by (unfold big; apply Rabs_le; lra).
    pose proof (rnd_err_le (D k1 + p) 120 ltac:(apply Rabs_le; lra)) as E2. set (stop := rnd (D k1 + p)) in *. apply Rabs_le_inv in E2. unfold u, h in E2.
    unfold np_arange. rewrite f_sub by (unfold big; apply Rabs_le; lra).
    pose proof (rnd_err_le (stop - D k0) 230 ltac:(apply Rabs_le; lra)) as E3. set (rg := rnd (stop - D k0)) in *. apply Rabs_le_inv in E3. unfold u, h in E3.
    assert (Rg : - / 1000000000000 <= rg - ((IZR k1 - IZR k0) * w + 3 / 2 * w) <= / 1000000000000) by lra.
    assert (Wd : 9 / 100000 <= st) by lra.
    assert (Mn : 0 <= (IZR k1 - IZR k0) * w <= 200) by (split; [nra|lra]).
    assert (NN : 0 <= IZR k1 - IZR k0 <= 2000000).
    { split; [lra|]. apply Rmult_le_reg_r with w; [lra|]. lra. }
    assert (Q1 : Rabs (rg / st - (IZR k1 - IZR k0 + 3 / 2)) <= / 1000).
    { replace (rg / st - (IZR k1 - IZR k0 + 3 / 2)) with ((rg - (IZR k1 - IZR k0 + 3 / 2) * st) * / st) by (field; lra).
      rewrite Rabs_mult, Rabs_inv, (Rabs_pos_eq st) by lra. apply Rmult_le_reg_r with st; [lra|]. rewrite Rmult_assoc, Rinv_l by lra.
      assert (X : Rabs (rg - (IZR k1 - IZR k0 + 3 / 2) * st) <= / 30000000).
      { replace (rg - (IZR k1 - IZR k0 + 3 / 2) * st) with ((rg - ((IZR k1 - IZR k0) * w + 3 / 2 * w)) - (IZR k1 - IZR k0 + 3 / 2) * (st - w)) by ring.
        assert (Y : - (2000002 * / 100000000000000) <= (IZR k1 - IZR k0 + 3 / 2) * (st - w) <= 2000002 * / 100000000000000).
        { set (n := IZR k1 - IZR k0 + 3 / 2) in *. assert (0 <= n <= 2000002) by (unfold n; lra). set (y := st - w) in *. clear - H Est. split; nra. }
        apply Rabs_le. lra. }
      lra. }
    assert (Bq : Rabs (rg / st) <= 2000003) by (apply Rabs_le_inv in Q1; apply Rabs_le; lra).
    rewrite f_div by (lra || (unfold big; lra)).
    pose proof (rnd_err_le (rg / st) 2000003 Bq) as E4. set (q := rnd (rg / st)) in *. apply Rabs_le_inv in E4, Q1. unfold u, h in E4.
    unfold nceilZ. change (nfloorZ (nopp (Fin q))) with (Some (Int_part (- q))).
    assert (IP : Int_part (- q) = (- (k1 - k0 + 2))%Z). { apply Int_part_unique. rewrite opp_IZR, plus_IZR, minus_IZR. lra. }
    rewrite IP. rewrite Z.opp_involutive.
    rewrite f_add by (unfold big; apply Rabs_le; lra).
    pose proof (rnd_err_le (D k0 + st) 120 ltac:(apply Rabs_le; lra)) as E5. set (nx := rnd (D k0 + st)) in *. apply Rabs_le_inv in E5. unfold u, h in E5.
    rewrite f_sub by (unfold big; apply Rabs_le; lra).
    pose proof (rnd_err_le (nx - D k0) 12 ltac:(apply Rabs_le; lra)) as E6. set (dl := rnd (nx - D k0)) in *. apply Rabs_le_inv in E6. unfold u, h in E6.
    assert (Dl : - / 10000000000000 <= dl - w <= / 10000000000000) by lra. clear E5 E6.
    eexists. split; [reflexivity|]. unfold zseq. rewrite !map_map. apply map_ext_in. intros i Hi. apply in_seq in Hi.
    assert (Hi' : (Z.of_nat i <= k1 - k0 + 1)%Z) by lia. apply IZR_le in Hi'. rewrite plus_IZR, minus_IZR in Hi'.
    assert (Hi0 : 0 <= IZR (Z.of_nat i)) by (apply IZR_le; lia). set (x := IZR (Z.of_nat i)) in *.
    assert (Xw : 0 <= x * w <= 211).
    { split; [apply Rmult_le_pos; lra|]. apply Rle_trans with ((IZR k1 - IZR k0 + 1) * w); [apply Rmult_le_compat_r; lra|]. lra. }
    assert (Xd : - / 2000000 <= x * dl - x * w <= / 2000000).
    { replace (x * dl - x * w) with (x * (dl - w)) by ring. set (y := dl - w) in *. assert (0 <= x <= 2000001) by lra. clear - H Dl. split; nra. }
    unfold ofnat. rewrite f_ofZ.
    2:{ apply le_IZR. rewrite abs_IZR, Rabs_pos_eq by exact Hi0. change (2 ^ 53)%Z with 9007199254740992%Z. fold x. lra. }
    fold x. rewrite f_mul by (unfold big; apply Rabs_le; lra).
    pose proof (rnd_err_le (x * dl) 212 ltac:(apply Rabs_le; lra)) as E7. set (xd := rnd (x * dl)) in *. apply Rabs_le_inv in E7. unfold u, h in E7.
    rewrite f_add by (unfold big; apply Rabs_le; lra).
    pose proof (rnd_err_le (D k0 + xd) 330 ltac:(apply Rabs_le; lra)) as E8. apply Rabs_le_inv in E8. unfold u, h in E8.
    pose proof (bin_near L j d W (rnd (D k0 + xd)) (k0 + Z.of_nat i)) as BN. unfold FI3 in BN. apply BN.
    - apply Rabs_le. lra.
    - fold w. rewrite plus_IZR. fold x. apply Rabs_le. lra.
  Qed.

  (** the histogram *)
  Lemma edge k : ok k -> exists q, nsub (Fin (D k)) (ndiv (dec_val (width j d)) two) = Fin q /\ (forall k', ok k' -> xleb (Fin q) (Fin (D k')) = (k <=? k')%Z) /\
    (forall k', ok k' -> xltb (Fin (D k')) (Fin q) = (k' <? k)%Z) /\ (forall k', ok k' -> xleb (Fin (D k')) (Fin q) = (k' <? k)%Z).
  Proof.
    intros H. destruct (threshold L j d W k H) as (q & E & Q). exists q. split; [exact E|]. pose proof (W_bounds j d W) as B. fold w in B, Q. apply Rabs_le_inv in Q.
    assert (A : forall k', ok k' -> (k <= k')%Z /\ q < D k' \/ (k' < k)%Z /\ D k' < q).
    { intros k' H'. pose proof (dec_near j d k' H') as N. fold w in N. fold (D k') in N. apply Rabs_le_inv in N. destruct (Z.lt_ge_cases k' k) as [X|X].
      - right. split; [exact X|]. assert (X' : (k' + 1 <= k)%Z) by lia. apply IZR_le in X'. rewrite plus_IZR in X'. nra.
      - left. split; [exact X|]. apply IZR_le in X. nra. }
    split; [|split]; intros k' H'; cbn [xleb xltb]; destruct (A k' H') as [[X Y]|[X Y]].
    - rewrite (proj2 (rle_true _ _)) by lra. symmetry. apply Z.leb_le, X.
    - rewrite (proj2 (rle_false _ _)) by lra. symmetry. apply Z.leb_gt, X.
    - rewrite (proj2 (rlt_false _ _)) by lra. symmetry. apply Z.ltb_ge, X.
    - rewrite (proj2 (rlt_true _ _)) by lra. symmetry. apply Z.ltb_lt, X.
    - rewrite (proj2 (rle_false _ _)) by lra. symmetry. apply Z.ltb_ge, X.
    - rewrite (proj2 (rle_true _ _)) by lra. symmetry. apply Z.ltb_lt, X.
  Qed.
  Lemma zip_ones Ks (f : xr -> bool) : map snd (filter (fun p => f (fst p)) (zip (map (fun k => Fin (D k)) Ks) (unit_weights (map (fun k => Fin (D k)) Ks))))
    = repeat (Fin 1) (length (filter (fun k => f (Fin (D k))) Ks)).
  Proof.
    unfold unit_weights. assert (O : one = Fin 1) by (unfold one, FI7; apply f_ofZ; cbn; lia). rewrite O.
    induction Ks as [|k Ks IH]; [reflexivity|]. cbn [map zip filter fst]. destruct (f (Fin (D k))); cbn [map snd length repeat]; [f_equal|]; exact IH.
  Qed.
  Lemma histogram_D Ks k0 n : sums_in_some_order L -> (Z.of_nat (length Ks) <= 2 ^ 53)%Z -> (forall k, In k Ks -> ok k) -> (forall k, In k (zseq k0 (S n)) -> ok k) ->
    histogram (map (fun k => Fin (D k)) Ks) (unit_weights (map (fun k => Fin (D k)) Ks))
      (map (fun e => nsub e (ndiv (dec_val (width j d)) two)) (map (fun k => Fin (D k)) (zseq k0 (S n))))
    = map (fun k => Fin (INR (number k Ks))) (zseq k0 n).
  Proof.
    intros S Hn HK. revert k0. induction n as [|n IH]; intros k0 H0; [reflexivity|].
    rewrite (zseq_S k0 (Datatypes.S n)), (zseq_S k0 n). cbn [map]. rewrite <- (IH (k0 + 1)%Z) by (intros k Hk; apply H0; rewrite zseq_S; right; exact Hk).
    rewrite (zseq_S (k0 + 1) n). cbn [map].
    assert (K0 : ok k0) by (apply H0; rewrite zseq_S; left; reflexivity). assert (K1 : ok (k0 + 1)) by (apply H0; rewrite !zseq_S; right; left; reflexivity).
    destruct (edge k0 K0) as (q0 & E0 & G1 & _). destruct (edge (k0 + 1) K1) as (q1 & E1 & _ & G2 & G3). rewrite E0, E1.
    cbn [histogram]. f_equal. rewrite (zip_ones Ks (in_bin (Fin q0) (Fin q1) _)).
    match goal with |- nsum (repeat _ ?m) = _ => assert (M : m = number k0 Ks) end.
    { unfold number. f_equal. apply filter_ext_in. intros k Hk. unfold in_bin. change nleb with xleb. change nltb with xltb. rewrite G1 by (apply HK, Hk).
      destruct (map _ (map _ (zseq (k0 + 1 + 1) n))); [rewrite G3 by (apply HK, Hk)|rewrite G2 by (apply HK, Hk)];
        destruct (Z.leb_spec k0 k), (Z.ltb_spec k (k0 + 1)), (Z.eqb_spec k0 k); cbn [andb]; try reflexivity; lia. }
    rewrite M. change (l_sum L (repeat (Fin 1) (number k0 Ks)) = Fin (INR (number k0 Ks))). apply sum_ones; [exact S|].
    assert (X : (number k0 Ks <= length Ks)%nat) by (unfold number; apply filter_le). lia.
  Qed.
End Fmd.
