(** * Property theorems about binning in IEEE double precision (C170-C173)

    [F64 L] are the operations of double precision (F64.v), for any mathematical library [L].
    [width j d] is the bin width j / 10^d, [decimal j d K] the double nearest to K * j / 10^d and
    [nearest_double v] what Python makes of the decimal number v. *)
From Coq Require Import ZArith List Bool Reals Lia Lra Psatz.
From Flocq Require Import Core.
From Verif Require Import Base Num XR RList Binning_model BValue_model BValue_run Props_BValue2 Openquake_model F64 Spec_F64 F64_proofs F64_test.
Import ListNotations.
Open Scope R_scope.

Lemma ex_width : usual_width 1 1.
Proof. split; [lia|]. unfold widthR. cbn. lra. Qed.

Lemma w11 : widthR 1 1 = 1 / 10.
Proof. reflexivity. Qed.

(** ** C170: the result is the double of a decimal multiple of delta, the nearest one *)
Theorem C170_result_is_the_decimal : forall (L : libm) j d (xs : list R), usual_width j d -> (forall x, In x xs -> Rabs x <= 1000) ->
  exists Ks, @bin_to_precision xr (F64 L) (Some (map Fin xs)) (width j d) = Ok (map (fun K => Fin (decimal j d K)) Ks) /\
    Forall2 (fun x K => Rabs (x - IZR K * widthR j d) <= (1 / 2 + / 10000000) * widthR j d) xs Ks.
Proof.
  intros L j d xs W B. unfold bin_to_precision. pose proof (not_below_eps L j d W) as X. unfold FI3 in X. rewrite X. clear X.
  induction xs as [|x xs IH]; [exists []; split; [reflexivity|constructor]|].
  destruct IH as (Ks & E & F); [intros y Hy; apply B; right; exact Hy|].
  destruct (bin_elem_f64 L j d W x (B x (or_introl eq_refl))) as (K & e & EK & I & S & T). unfold FI3 in EK.
  exists (K :: Ks). apply Ok_inj in E. split.
  - cbn [map]. rewrite EK, E. reflexivity.
  - constructor; [|exact F]. pose proof (W_bounds j d W) as WB. apply Rabs_le_inv in S.
    assert (6 * u * (Rabs (x / widthR j d) + 1) <= / 100000000) by (unfold u; lra).
    assert (Ex : x = x / widthR j d * widthR j d) by (field; lra). set (t := x / widthR j d) in *.
    assert (D1 : - (1 / 2 + / 10000000) <= t - IZR K <= 1 / 2 + / 10000000) by lra. clear - WB D1 Ex. rewrite Ex. apply Rabs_le. nra.
Qed.
(** a decimal number in the bin of K (its lower edge included) is rounded to K, up to 1000 bins away from 0 *)
Theorem C170_half_way_goes_up : forall (L : libm) j d K v, usual_width j d -> Rabs v <= 1000 * widthR j d -> Rabs v <= 1000 ->
  (IZR K - 1 / 2) * widthR j d <= v <= (IZR K + 1 / 2 - 2 / 1000000000000) * widthR j d ->
  @bin_to_precision xr (F64 L) (Some [Fin (nearest_double v)]) (width j d) = Ok [Fin (decimal j d K)].
Proof.
  intros L j d K v W Bw B I. unfold bin_to_precision. pose proof (not_below_eps L j d W) as X. unfold FI3 in X. rewrite X. clear X. cbn [map].
  pose proof (W_bounds j d W) as WB. pose proof (rnd_err v) as EV. change (rnd v) with (nearest_double v) in EV.
  assert (B' : Rabs (nearest_double v) <= 1000).
  { change (nearest_double v) with (rnd v). rewrite rnd_abs. rewrite <- (rnd_int 1000) by (cbn; lia). apply rnd_mono. exact B. }
  destruct (bin_elem_f64 L j d W (nearest_double v) B') as (K' & e & EK & I' & S & T). unfold FI3 in EK. rewrite EK. do 4 f_equal.
  assert (Q : Rabs (nearest_double v / widthR j d - v / widthR j d) <= 101 / 100 * u * 1000).
  { eapply Rle_trans; [apply (quot_err j d W _ _ _ EV)|]. set (ww := widthR j d) in *.
    apply Rmult_le_reg_r with ww; [lra|]. unfold Rdiv. rewrite Rmult_assoc, Rinv_l, Rmult_1_r by lra.
    assert (Rabs v * u <= 1000 * ww * u) by (apply Rmult_le_compat_r; [unfold u; lra|exact Bw]). unfold u, h in *. lra. }
  assert (V1 : IZR K - 1 / 2 <= v / widthR j d <= IZR K + 1 / 2 - 2 / 1000000000000).
  { set (ww := widthR j d) in *. assert (Y : v = v / ww * ww) by (field; lra). destruct I as [I1 I2]. rewrite Y in I1, I2. split.
    - apply Rmult_le_reg_r with ww; [lra|exact I1].
    - apply Rmult_le_reg_r with ww; [lra|exact I2]. }
  assert (V2 : Rabs (v / widthR j d) <= 1000).
  { unfold Rdiv. rewrite Rabs_mult, Rabs_inv, (Rabs_pos_eq (widthR j d)) by lra. apply Rmult_le_reg_r with (widthR j d); [lra|]. rewrite Rmult_assoc, Rinv_l by lra. lra. }
  set (t := v / widthR j d) in *. set (t' := nearest_double v / widthR j d) in *. apply Rabs_le_inv in Q, V2, S.
  assert (S' : 6 * u * (Rabs t' + 1) <= 6 * u * 1002).
  { apply Rmult_le_compat_l; [unfold u; lra|]. assert (Rabs t' <= 1001) by (apply Rabs_le; unfold u in Q; lra). lra. }
  unfold u in *. assert (Z1 : IZR K' < IZR (K + 1)) by (rewrite plus_IZR; lra). assert (Z2 : IZR K < IZR (K' + 1)) by (rewrite plus_IZR; lra).
  apply lt_IZR in Z1. apply lt_IZR in Z2. lia.
Qed.
Print Assumptions C170_result_is_the_decimal.
Print Assumptions C170_half_way_goes_up.
(** 0.25 (not a multiple of 0.1) goes to 0.3 *)
Example C170_example : forall L, @bin_to_precision xr (F64 L) (Some [Fin (nearest_double (25 / 100))]) (width 1 1) = Ok [Fin (decimal 1 1 3)].
Proof.
  intros L. apply C170_half_way_goes_up; [exact ex_width| | |]; rewrite ?w11; try (rewrite Rabs_pos_eq; lra). lra.
Qed.

(** ** C171: binning twice changes nothing; members of a bin become the same double *)
Theorem C171_idempotent : forall (L : libm) j d (xs : list R) ys, usual_width j d -> (forall x, In x xs -> Rabs x <= 900) ->
  @bin_to_precision xr (F64 L) (Some (map Fin xs)) (width j d) = Ok ys -> @bin_to_precision xr (F64 L) (Some ys) (width j d) = Ok ys.
Proof.
  intros L j d xs ys W B E. destruct (C170_result_is_the_decimal L j d xs W) as (Ks & E' & F). { intros x Hx. pose proof (B x Hx). lra. }
  rewrite E' in E. apply Ok_inj in E. subst ys. unfold bin_to_precision. pose proof (not_below_eps L j d W) as X. unfold FI3 in X. rewrite X. f_equal.
  pose proof (W_bounds j d W) as WB. rewrite map_map. clear E'. revert B. induction F as [|x K xs Ks HK F IH]; intros B; [reflexivity|]. cbn [map].
  rewrite IH by (intros y Hy; apply B; right; exact Hy). f_equal. apply (bin_decimal L j d W).
  pose proof (B x (or_introl eq_refl)) as Bx. apply Rabs_le_inv in Bx, HK. apply Rabs_le. nra.
Qed.
(** values that belong to the same decimal, in whatever way they were computed, become identical *)
Theorem C171_same_bin_same_double : forall (L : libm) j d K x, usual_width j d -> Rabs x <= 1000 -> Rabs (x - IZR K * widthR j d) <= 4 / 10 * widthR j d ->
  @bin_to_precision xr (F64 L) (Some [Fin x]) (width j d) = Ok [Fin (decimal j d K)].
Proof.
  intros L j d K x W B H. unfold bin_to_precision. pose proof (not_below_eps L j d W) as X. unfold FI3 in X. rewrite X. cbn [map].
  pose proof (bin_near L j d W x K B H) as N. unfold FI3 in N. rewrite N. reflexivity.
Qed.
Print Assumptions C171_idempotent.
Print Assumptions C171_same_bin_same_double.
Example C171_example : forall L, @bin_to_precision xr (F64 L) (Some [Fin (nearest_double (1 / 10) + nearest_double (2 / 10))]) (width 1 1) = Ok [Fin (decimal 1 1 3)].
Proof.
  intros L. assert (A : Rabs (rnd (1 / 10) - 1 / 10) <= 1 / 10 * u + h) by (apply rnd_err_le; rewrite Rabs_pos_eq; lra).
  assert (B : Rabs (rnd (2 / 10) - 2 / 10) <= 2 / 10 * u + h) by (apply rnd_err_le; rewrite Rabs_pos_eq; lra).
  change (nearest_double (1 / 10)) with (rnd (1 / 10)). change (nearest_double (2 / 10)) with (rnd (2 / 10)). apply Rabs_le_inv in A, B. unfold u, h in *.
  apply C171_same_bin_same_double; [exact ex_width|apply Rabs_le; lra|]. rewrite w11. apply Rabs_le. lra.
Qed.

(** ** C172: the check of the estimators accepts every sample on a grid below magnitude 8, and no other *)
Theorem C172_grid_is_accepted : forall (L : libm) j d rs, usual_width j d -> known rs <> [] -> on_a_grid j d rs ->
  (forall r, In r (known rs) -> Rabs r < 8) ->
  @binning_test xr (F64 L) (sample rs) (width j d) (@lit xr (F64 L) 1 15) false = Ok true.
Proof. intros L j d rs W N G B. exact (test_accepts L j d rs W N B G). Qed.
Theorem C172_accepted_is_a_grid : forall (L : libm) j d rs, usual_width j d -> known rs <> [] -> (forall r, In r (known rs) -> Rabs r <= 100) ->
  @binning_test xr (F64 L) (sample rs) (width j d) (@lit xr (F64 L) 1 15) false = Ok true ->
  forall r r', In r (known rs) -> In r' (known rs) -> exists K, Rabs (nearest_double r - nearest_double r' - IZR K * widthR j d) <= / 100000000000.
Proof. intros L j d rs W N B T. exact (test_sound L j d rs W N B T). Qed.
Print Assumptions C172_grid_is_accepted.
Print Assumptions C172_accepted_is_a_grid.
(** magnitudes on the grid 0.05 + 0.1 n *)
Example C172_example : forall L, @binning_test xr (F64 L) (sample [Some (-35 / 100); None; Some (75 / 100); Some (795 / 100)]) (width 1 1) (@lit xr (F64 L) 1 15) false = Ok true.
Proof.
  intros L. apply C172_grid_is_accepted; [exact ex_width|discriminate| |].
  - intros r r' Hr Hr'. cbn [known In] in Hr, Hr'. rewrite w11.
    destruct Hr as [<-|[<-|[<-|[]]]], Hr' as [<-|[<-|[<-|[]]]];
      [exists 0%Z|exists (-11)%Z|exists (-83)%Z|exists 11%Z|exists 0%Z|exists (-72)%Z|exists 83%Z|exists 72%Z|exists 0%Z]; lra.
  - intros r Hr. cbn [known In] in Hr. destruct Hr as [<-|[<-|[<-|[]]]]; apply Rabs_lt; lra.
Qed.

(** ** C173 is false: magnitudes of 8 and more, correctly binned, are rejected *)
Lemma r82 : rnd (82 / 10) = 4616189618054758 / 562949953421312.
Proof. rewrite (rnd_is (82 / 10) 4616189618054758 (-49)); [cbn; lra|lia|lia|]. cbn. apply Rabs_lt. lra. Qed.
Lemma r74 : rnd (74 / 10) = 8331659310635418 / 1125899906842624.
Proof. rewrite (rnd_is (74 / 10) 8331659310635418 (-50)); [cbn; lra|lia|lia|]. cbn. apply Rabs_lt. lra. Qed.
Lemma r08 : rnd (8 / 10) = 7205759403792794 / 9007199254740992.
Proof. rewrite (rnd_is (8 / 10) 7205759403792794 (-53)); [cbn; lra|lia|lia|]. cbn. apply Rabs_lt. lra. Qed.
Lemma rejected L : @binning_test xr (F64 L) (sample [Some (74 / 10); Some (82 / 10)]) (width 1 1) (@lit xr (F64 L) 1 15) false = Ok false.
Proof.
  pose proof (test_unfold L 1 1 [Some (74 / 10); Some (82 / 10)] _ ex_width
    (shift_sample L [Some (74 / 10); Some (82 / 10)] (74 / 10) [82 / 10] eq_refl
       ltac:(intros r Hr; cbn [known In] in Hr; destruct Hr as [<-|[<-|[]]]; apply Rabs_le; lra)) ltac:(discriminate)) as U.
  unfold FI4 in U. rewrite U. f_equal. clear U. cbn [known map forallb]. apply andb_false_intro2. rewrite andb_true_r.
  assert (M : Rminl (74 / 10) [82 / 10] = 74 / 10) by (unfold Rminl; cbn [fold_left]; rewrite Rmin_left; lra). rewrite M, r82, r74.
  set (s := rnd (4616189618054758 / 562949953421312 - 8331659310635418 / 1125899906842624)).
  assert (ES : s = 900719925474098 / 1125899906842624).
  { unfold s. rewrite (rnd_is _ 7205759403792784 (-53)); [cbn; lra|lia|lia|]. cbn. apply Rabs_lt. lra. }
  pose proof (bin_near L 1 1 ex_width s 8) as BN. unfold FI3 in BN. rewrite w11 in BN.
  rewrite BN by (rewrite ES; apply Rabs_le; lra). clear BN.
  assert (ED : decimal 1 1 8 = 7205759403792794 / 9007199254740992).
  { unfold decimal. rewrite w11. change nearest_double with rnd. replace (8 * (1 / 10)) with (8 / 10) by lra. exact r08. }
  rewrite ED, ES. unfold isclose. change (nfinite (Fin (7205759403792794 / 9007199254740992)) && nfinite (Fin (900719925474098 / 1125899906842624))) with true. cbv iota.
  rewrite f_sub by (unfold big; apply Rabs_le; lra).
  rewrite fl15, fl16. change (@nabs xr (F64 L) (Fin (900719925474098 / 1125899906842624))) with (Fin (Rabs (900719925474098 / 1125899906842624))). rewrite (Rabs_pos_eq (900719925474098 / 1125899906842624)) by lra.
  pose proof (rnd_err_le (/ 1000000000000000) (/ 1000000000000000) ltac:(rewrite Rabs_pos_eq; lra)) as E1. pose proof (rnd_err_le (/ 10000000000000000) (/ 10000000000000000) ltac:(rewrite Rabs_pos_eq; lra)) as E2.
  set (a := rnd (/ 1000000000000000)) in *. set (b := rnd (/ 10000000000000000)) in *. apply Rabs_le_inv in E1, E2. unfold u, h in *.
  rewrite f_mul by (unfold big; apply Rabs_le; lra).
  set (p := b * (900719925474098 / 1125899906842624)) in *.
  assert (P : 0 <= p <= 81 / 1000000000000000000) by (unfold p; lra).
  pose proof (rnd_err_le p (81 / 1000000000000000000) ltac:(rewrite Rabs_pos_eq; lra)) as E3. apply Rabs_le_inv in E3. unfold u, h in *.
  rewrite f_add by (unfold big; apply Rabs_le; lra).
  pose proof (rnd_err_le (a + rnd p) (109 / 100000000000000000) ltac:(apply Rabs_le; lra)) as E4. apply Rabs_le_inv in E4. unfold u, h in *.
  change (rle (Rabs (rnd (7205759403792794 / 9007199254740992 - 900719925474098 / 1125899906842624))) (rnd (a + rnd p)) = false). apply rle_false.
  rewrite rnd_abs, Rabs_pos_eq by lra.
  assert (E5 : rnd (7205759403792794 / 9007199254740992 - 900719925474098 / 1125899906842624) = 10 / 9007199254740992).
  { replace (7205759403792794 / 9007199254740992 - 900719925474098 / 1125899906842624) with (10 / 9007199254740992) by lra. apply rnd_id, generic_format_FLT.
    exists (Float radix2 10 (-53)); cbn [Fnum Fexp]; [unfold F2R; cbn; lra|cbn; lia|lia]. }
  rewrite E5. lra.
Qed.
Theorem C173_large_magnitudes_rejected_refuted : forall (L : libm),
  ~ (forall j d rs, usual_width j d -> known rs <> [] -> on_a_grid j d rs -> (forall r, In r (known rs) -> Rabs r < 10) ->
       @binning_test xr (F64 L) (sample rs) (width j d) (@lit xr (F64 L) 1 15) false = Ok true).
Proof.
  intros L H. specialize (H 1%Z 1%nat [Some (74 / 10); Some (82 / 10)] ex_width ltac:(discriminate)). rewrite rejected in H.
  assert (F : Ok false = Ok true); [|discriminate F]. apply H.
  - intros r r' Hr Hr'. cbn [known In] in Hr, Hr'. rewrite w11.
    destruct Hr as [<-|[<-|[]]], Hr' as [<-|[<-|[]]]; [exists 0%Z|exists (-8)%Z|exists 8%Z|exists 0%Z]; lra.
  - intros r Hr. cbn [known In] in Hr. destruct Hr as [<-|[<-|[]]]; apply Rabs_lt; lra.
Qed.
(** no b-value for a catalogue with the magnitudes 7.4 and 8.2, whatever the estimator *)
Theorem C173_no_estimate_refuted : forall (L : libm) srt k w mc o, k = Classic \/ k = Utsu ->
  snd (@calculate xr (F64 L) srt k w (mkargs (sample [Some (74 / 10); Some (82 / 10)]) mc (width 1 1) None None None) o) = Err ValueError.
Proof.
  intros L srt k w mc o Hk. apply (C23_not_binned xr (F64 L)); [discriminate|apply rejected|]. intros [->| ->]; destruct Hk; discriminate.
Qed.
Print Assumptions C173_large_magnitudes_rejected_refuted.
Print Assumptions C173_no_estimate_refuted.
