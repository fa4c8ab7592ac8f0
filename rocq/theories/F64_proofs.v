(** * Proofs about double precision: rounding errors and binning *)
From Coq Require Import ZArith List Bool Reals Lia Lra Psatz Permutation.
From Flocq Require Import Core Relative.
From Verif Require Import Base Num XR Binning_model Openquake_model F64 Spec_F64.
Import ListNotations.
Open Scope R_scope.

(** ** rounding *)
Definition u : R := / 9007199254740992.
Definition h : R := / 1000000000000000000000000000000.
Lemma u_val : 0 < u < 2 / 10000000000000000. Proof. unfold u; lra. Qed.
Lemma rnd_mono x y : x <= y -> rnd x <= rnd y.
Proof. intros H. apply round_le; [apply FLT_exp_valid; reflexivity|apply valid_rnd_N|exact H]. Qed.
Lemma rnd_opp x : rnd (- x) = - rnd x.
Proof. apply round_NE_opp. Qed.
Lemma rnd_abs x : Rabs (rnd x) = rnd (Rabs x).
Proof.
  unfold Rabs at 2. destruct (Rcase_abs x) as [A|A].
  - rewrite rnd_opp. rewrite Rabs_left1; [reflexivity|]. replace 0 with (rnd 0) by (apply round_0, valid_rnd_N). apply rnd_mono. lra.
  - rewrite Rabs_pos_eq; [reflexivity|]. replace 0 with (rnd 0) by (apply round_0, valid_rnd_N). apply rnd_mono. lra.
Qed.
Lemma rnd_int n : (Z.abs n <= 2 ^ 53)%Z -> rnd (IZR n) = IZR n.
Proof.
  intros H. apply round_generic; [apply valid_rnd_N|].
  destruct (Z.eq_dec (Z.abs n) (2 ^ 53)) as [E|E].
  - assert (G : generic_format radix2 (FLT_exp (-1074) 53) (bpow radix2 53)) by (apply generic_format_bpow; unfold FLT_exp; lia).
    assert (B : bpow radix2 53 = IZR (2 ^ 53)) by reflexivity.
    destruct (Z.abs_eq_or_opp n) as [A|A]; rewrite A in E.
    + rewrite E, <- B. exact G.
    + replace n with (- 2 ^ 53)%Z by lia. rewrite opp_IZR, <- B. apply generic_format_opp, G.
  - apply generic_format_FLT. exists (Float radix2 n 0); cbn [Fnum Fexp].
    + unfold F2R; cbn. ring.
    + change (radix2 ^ 53)%Z with (2 ^ 53)%Z. lia.
    + lia.
Qed.
Lemma rnd_0 : rnd 0 = 0. Proof. apply round_0, valid_rnd_N. Qed.
Lemma rnd_pow e : (-1074 <= e)%Z -> rnd (bpow radix2 e) = bpow radix2 e.
Proof. intros H. apply round_generic; [apply valid_rnd_N|]. apply generic_format_bpow; unfold FLT_exp; lia. Qed.
Lemma rnd_err x : Rabs (rnd x - x) <= Rabs x * u + h.
Proof.
  destruct (error_N_FLT radix2 (-1074) 53 ltac:(lia) (fun z => negb (Z.even z)) x) as (eps & eta & He & Ht & _ & E).
  unfold rnd. change ZnearestE with (Znearest (fun z => negb (Z.even z))). rewrite E. replace (x * (1 + eps) + eta - x) with (x * eps + eta) by ring.
  eapply Rle_trans; [apply Rabs_triang|]. rewrite Rabs_mult.
  assert (A : / 2 * bpow radix2 (- (53) + 1) = u). { unfold u. cbn. lra. }
  assert (B : / 2 * bpow radix2 (-1074) <= h).
  { apply Rle_trans with (bpow radix2 (-100)); [|unfold h; cbn; lra].
    assert (bpow radix2 (-1074) <= bpow radix2 (-100)) by (apply bpow_le; lia). pose proof (bpow_gt_0 radix2 (-1074)). lra. }
  rewrite A in He. apply Rplus_le_compat; [|lra].
  pose proof (Rabs_pos x). pose proof (Rabs_pos eps). apply Rmult_le_compat_l; assumption.
Qed.
(** the usual way to use it *)
Lemma rnd_err_le x M : Rabs x <= M -> Rabs (rnd x - x) <= M * u + h.
Proof. intros H. eapply Rle_trans; [apply rnd_err|]. pose proof u_val. nra. Qed.
Lemma rnd_format x : generic_format radix2 (FLT_exp (-1074) 53) (rnd x).
Proof. apply generic_format_round; [apply FLT_exp_valid; reflexivity|apply valid_rnd_N]. Qed.
Lemma rnd_id x : generic_format radix2 (FLT_exp (-1074) 53) x -> rnd x = x.
Proof. intros H. apply round_generic; [apply valid_rnd_N|exact H]. Qed.

(** ** the operations on moderate numbers *)
Definition big : R := 1000000000000000000000000000000.
Lemma fl_fin x : Rabs x <= big -> fl x = Fin (rnd x).
Proof.
  intros H. unfold fl. destruct (Rlt_dec (Rabs (rnd x)) maxfin) as [A|A]; [reflexivity|]. exfalso. apply A.
  rewrite rnd_abs. apply Rle_lt_trans with (bpow radix2 100).
  - rewrite <- (rnd_pow 100) by lia. apply rnd_mono. eapply Rle_trans; [exact H|]. unfold big. cbn. lra.
  - apply bpow_lt. lia.
Qed.
Section Ops.
  Context (L : libm).
  #[local] Instance FI : Num xr := F64 L.
  Lemma f_ofZ z : (Z.abs z <= 2 ^ 53)%Z -> ofZ z = Fin (IZR z).
  Proof.
    intros H. change (fl (IZR z) = Fin (IZR z)). rewrite fl_fin; [rewrite rnd_int by exact H; reflexivity|].
    rewrite <- abs_IZR. apply Rle_trans with (IZR (2 ^ 53)); [apply IZR_le; exact H|]. unfold big. change (2 ^ 53)%Z with 9007199254740992%Z. lra.
  Qed.
  Lemma f_add a b : Rabs (a + b) <= big -> nadd (Fin a) (Fin b) = Fin (rnd (a + b)).
  Proof. apply fl_fin. Qed.
  Lemma f_sub a b : Rabs (a - b) <= big -> nsub (Fin a) (Fin b) = Fin (rnd (a - b)).
  Proof. apply fl_fin. Qed.
  Lemma f_mul a b : Rabs (a * b) <= big -> nmul (Fin a) (Fin b) = Fin (rnd (a * b)).
  Proof. apply fl_fin. Qed.
  Lemma f_div a b : b <> 0 -> Rabs (a / b) <= big -> ndiv (Fin a) (Fin b) = Fin (rnd (a / b)).
  Proof. intros B H. change (fix64 (xdiv (Fin a) (Fin b)) = Fin (rnd (a / b))). cbn [xdiv]. destruct (Req_EM_T b 0); [contradiction|]. apply fl_fin, H. Qed.
  Lemma f_half : lit 5 1 = Fin (1 / 2).
  Proof.
    unfold lit. change (10 ^ Z.of_nat 1)%Z with 10%Z. rewrite !f_ofZ by (cbn; lia). rewrite f_div; [|lra|unfold big; rewrite Rabs_pos_eq; lra].
    replace (5 / 10) with (bpow radix2 (-1)) by (cbn; lra). rewrite rnd_pow by lia. f_equal; cbn; lra.
  Qed.
  Lemma f_eps : EPSILON = Fin (rnd (/ 1000000000000)).
  Proof.
    unfold EPSILON, lit. change (10 ^ Z.of_nat 12)%Z with 1000000000000%Z. rewrite !f_ofZ by (cbn; lia).
    rewrite f_div; [|lra|unfold big; rewrite Rabs_pos_eq; lra]. do 2 f_equal. lra.
  Qed.
  Lemma f_dec j d : usual_width j d -> (dec_val (width j d) : xr) = Fin (rnd (widthR j d)).
  Proof.
    intros (D & W1 & W2). unfold dec_val, width, widthR in *. cbn [expo mant].
    set (P := (10 ^ Z.of_nat d)%Z) in *.
    assert (HP : (1 <= P <= 10 ^ 10)%Z). { unfold P. split; [change 1%Z with (10 ^ 0)%Z|]; apply Z.pow_le_mono_r; lia. }
    assert (HPr : 1 <= IZR P <= 10000000000) by (split; apply IZR_le; cbn in HP; lia).
    assert (Hj : 0 <= IZR j <= 100000000000). { assert (IZR j = IZR j / IZR P * IZR P) by (field; lra). nra. }
    assert (Hjz : (0 <= j <= 100000000000)%Z) by (split; apply le_IZR; tauto).
    destruct (Z.ltb_spec (- Z.of_nat d) 0).
    - rewrite Z.opp_involutive. fold P. rewrite !f_ofZ by (cbn in *; lia). apply f_div; [lra|]. rewrite Rabs_pos_eq; unfold big; lra.
    - assert (d = 0%nat) by lia. subst d. cbn in P. subst P. replace (j * 10 ^ - Z.of_nat 0)%Z with j by (cbn; lia).
      rewrite f_ofZ by (cbn; lia). replace (IZR j / 1) with (IZR j) by field. f_equal. symmetry. apply rnd_int. cbn; lia.
  Qed.
End Ops.

(** ** binning in double precision *)
Section Bin.
  Context (L : libm) (j : Z) (d : nat) (W : usual_width j d).
  #[local] Instance FI2 : Num xr := F64 L.
  Let w := widthR j d.
  Let D := rnd w.
  Lemma W_bounds : 1 / 10000 <= w <= 10. Proof. destruct W as (_ & A). exact A. Qed.
  Lemma D_err : Rabs (D - w) <= w * u + h.
  Proof. pose proof W_bounds. unfold D. eapply Rle_trans; [apply rnd_err|]. rewrite Rabs_pos_eq by lra. lra. Qed.
  Lemma D_bounds : 9 / 100000 <= D <= 11.
  Proof. pose proof W_bounds. pose proof D_err as E. apply Rabs_le_inv in E. unfold u, h in E. lra. Qed.
  Lemma D_rel : Rabs (w - D) <= 2 * u * D.
  Proof. pose proof W_bounds. pose proof D_err as E. apply Rabs_le_inv in E. apply Rabs_le. unfold u, h in *. lra. Qed.

  Lemma q_err x : Rabs (x / D - x / w) <= Rabs (x / w) * (2 * u).
  Proof.
    pose proof W_bounds. pose proof D_bounds. replace (x / D - x / w) with (x / w * ((w - D) / D)) by (field; lra).
    rewrite Rabs_mult. apply Rmult_le_compat_l; [apply Rabs_pos|]. unfold Rdiv. rewrite Rabs_mult, Rabs_inv, (Rabs_pos_eq D) by lra.
    apply Rmult_le_reg_r with D; [lra|]. rewrite Rmult_assoc, Rinv_l by lra. pose proof D_rel. lra.
  Qed.
  (** the index of the bin *)
  Lemma stage1 x : Rabs (x / w) <= 11000000 -> exists K e,
    normal_round_to_int (ndiv (Fin x) (dec_val (width j d))) = Fin (IZR K) /\
    IZR K <= x / w + 1 / 2 + / 1000000000000 + e < IZR K + 1 /\ Rabs e <= 6 * u * (Rabs (x / w) + 1).
  Proof.
    intros Hx. pose proof W_bounds. pose proof D_bounds. pose proof u_val.
    unfold normal_round_to_int. unfold FI2. rewrite f_dec, f_half, f_eps by exact W. fold w D.
    pose proof (q_err x) as Q0. set (t := x / w) in *. set (q0 := x / D) in *.
    assert (T0 : 0 <= Rabs t) by apply Rabs_pos. set (T := Rabs t) in *.
    assert (Ht : - T <= t <= T) by (apply Rabs_le_inv; unfold T; lra).
    apply Rabs_le_inv in Q0.
    assert (UT : 0 <= u * T <= / 100000000) by (unfold u; nra).
    assert (BQ : Rabs q0 <= T + 1) by (apply Rabs_le; nra).
    rewrite f_div; [|lra|fold q0; unfold big; lra]. fold q0.
    assert (E1 : Rabs (rnd q0 - q0) <= (T + 2 * (u * T)) * u + h) by (apply rnd_err_le, Rabs_le; nra).
    set (q := rnd q0) in *. apply Rabs_le_inv in E1.
    assert (E1' : - (u * T + / 10000000000000000000000) <= q - q0 <= u * T + / 10000000000000000000000). { unfold h in E1. replace ((T + 2 * (u * T)) * u) with (u * T + 2 * (u * T) * u) in E1 by ring. unfold u in E1 at 2 6. unfold u in *. split; nra. }
    assert (BQ' : - (T + / 100) <= q <= T + / 100) by lra.
    rewrite f_add; [|unfold big; apply Rabs_le; lra].
    assert (E2 : Rabs (rnd (q + 1 / 2) - (q + 1 / 2)) <= (T + 6 / 10) * u + h) by (apply rnd_err_le, Rabs_le; lra).
    set (a1 := rnd (q + 1 / 2)) in *. apply Rabs_le_inv in E2.
    assert (E3 : Rabs (rnd (/ 1000000000000) - / 1000000000000) <= / 1000000000000 * u + h) by (apply rnd_err_le; rewrite Rabs_pos_eq; lra).
    set (ep := rnd (/ 1000000000000)) in *. apply Rabs_le_inv in E3.
    assert (E3' : - / 1000000000000000000000 <= ep - / 1000000000000 <= / 1000000000000000000000) by (unfold u, h in E3; lra).
    assert (E2' : - (u * T + 6 / 10 * u + / 100000000000000000000) <= a1 - (q + 1/2) <= u * T + 6 / 10 * u + / 100000000000000000000) by (unfold h in E2; lra).
    assert (U1 : u <= / 1000000000000000) by (unfold u; lra).
    rewrite f_add; [|unfold big; apply Rabs_le; lra].
    assert (E4 : Rabs (rnd (a1 + ep) - (a1 + ep)) <= (T + 7 / 10) * u + h) by (apply rnd_err_le, Rabs_le; lra).
    set (s := rnd (a1 + ep)) in *. apply Rabs_le_inv in E4.
    exists (Int_part s), (s - (t + 1 / 2 + / 1000000000000)).
    assert (ES : - (6 * u * (T + 1)) <= s - (t + 1 / 2 + / 1000000000000) <= 6 * u * (T + 1)).
    { unfold h in *. replace (6 * u * (T + 1)) with (6 * (u * T) + 6 * u) by ring. replace ((T + 7 / 10) * u) with (u * T + 7 / 10 * u) in E4 by ring. replace (T * (2 * u)) with (2 * (u * T)) in Q0 by ring. unfold u in UT at 1. assert (/ 10000000000000000 <= u) by (unfold u; lra). lra. }
    split; [|split].
    - unfold nfloor. change (nfloorZ (Fin s)) with (Some (Int_part s)). cbv iota beta. rewrite f_ofZ; [reflexivity|].
      pose proof (Int_part_spec s). apply le_IZR. rewrite abs_IZR. change (2 ^ 53)%Z with 9007199254740992%Z. apply Rabs_le. lra.
    - pose proof (Int_part_spec s). lra.
    - apply Rabs_le. exact ES.
  Qed.
  (** from the index to the double *)
  Lemma stage2 K : Rabs (IZR K * w) <= 1100 -> 
    normal_round (nmul (Fin (IZR K)) (dec_val (width j d))) (Z.to_nat (Z.abs (expo (width j d)))) = Fin (decimal j d K).
  Proof.
    intros HK. pose proof W_bounds. pose proof D_bounds. unfold FI2. rewrite f_dec by exact W. fold w D.
    assert (EX : Z.to_nat (Z.abs (expo (width j d))) = d) by (cbn [expo width]; lia). rewrite EX.
    destruct W as (Hd & _). unfold normal_round. set (P := (10 ^ Z.of_nat d)%Z) in *.
    assert (HP : (1 <= P <= 10 ^ 10)%Z). { unfold P. split; [change 1%Z with (10 ^ 0)%Z|]; apply Z.pow_le_mono_r; lia. }
    assert (HPr : 1 <= IZR P <= 10000000000) by (split; apply IZR_le; cbn in HP; lia).
    assert (Ew : IZR K * w * IZR P = IZR (K * j)). { rewrite mult_IZR. unfold w, widthR. fold P. field. lra. }
    assert (KP : Rabs (IZR (K * j)) <= 11000000000000). { rewrite <- Ew, Rabs_mult, (Rabs_pos_eq (IZR P)) by lra. pose proof (Rabs_pos (IZR K * w)). nra. }
    rewrite f_ofZ by (cbn in *; lia). pose proof u_val.
    assert (KD : Rabs (IZR K * D - IZR K * w) <= 1200 * u).
    { replace (IZR K * D - IZR K * w) with (IZR K * w * ((D - w) / w)) by (field; lra). rewrite Rabs_mult.
      assert (Rabs ((D - w) / w) <= 101 / 100 * u).
      { unfold Rdiv. rewrite Rabs_mult, Rabs_inv, (Rabs_pos_eq w) by lra. apply Rmult_le_reg_r with w; [lra|]. rewrite Rmult_assoc, Rinv_l by lra.
        pose proof D_err. unfold u, h in *. lra. }
      apply Rle_trans with (1100 * (101 / 100 * u)); [|lra]. apply Rmult_le_compat; try apply Rabs_pos; assumption. }
    apply Rabs_le_inv in HK. apply Rabs_le_inv in KD. assert (U1 : u <= / 1000000000000000) by (unfold u; lra).
    rewrite f_mul by (unfold big; apply Rabs_le; lra).
    assert (E1 : Rabs (rnd (IZR K * D) - IZR K * D) <= 1200 * u + h) by (apply rnd_err_le, Rabs_le; lra).
    set (p := rnd (IZR K * D)) in *. apply Rabs_le_inv in E1.
    assert (E1' : - (2500 * u) <= p - IZR K * w <= 2500 * u) by (unfold u, h in *; lra).
    assert (E2 : Rabs (p * IZR P - IZR (K * j)) <= 3 / 1000).
    { rewrite <- Ew. replace (p * IZR P - IZR K * w * IZR P) with ((p - IZR K * w) * IZR P) by ring. apply Rabs_le. unfold u in E1'. nra. }
    apply Rabs_le_inv in E2. apply Rabs_le_inv in KP.
    rewrite f_mul by (unfold big; apply Rabs_le; lra).
    assert (E3 : Rabs (rnd (p * IZR P) - p * IZR P) <= 12000000000000 * u + h) by (apply rnd_err_le, Rabs_le; lra).
    set (v := rnd (p * IZR P)) in *. apply Rabs_le_inv in E3.
    unfold normal_round_to_int. rewrite f_half, f_eps.
    assert (E4 : Rabs (rnd (/ 1000000000000) - / 1000000000000) <= / 1000000000000 * u + h) by (apply rnd_err_le; rewrite Rabs_pos_eq; lra).
    set (ep := rnd (/ 1000000000000)) in *. apply Rabs_le_inv in E4.
    unfold h, u in *. rewrite f_add by (unfold big; apply Rabs_le; lra).
    assert (E5 : Rabs (rnd (v + 1 / 2) - (v + 1 / 2)) <= 12000000000000 * u + h) by (apply rnd_err_le, Rabs_le; unfold u; lra).
    set (a := rnd (v + 1 / 2)) in *. apply Rabs_le_inv in E5. unfold h, u in *.
    rewrite f_add by (unfold big; apply Rabs_le; lra).
    assert (E6 : Rabs (rnd (a + ep) - (a + ep)) <= 12000000000000 * u + h) by (apply rnd_err_le, Rabs_le; unfold u; lra).
    set (s := rnd (a + ep)) in *. apply Rabs_le_inv in E6. unfold h, u in *.
    assert (IP : Int_part s = (K * j)%Z) by (apply Int_part_unique; lra).
    unfold nfloor. change (nfloorZ (Fin s)) with (Some (Int_part s)). cbv iota beta. rewrite IP, f_ofZ.
    2:{ apply le_IZR. rewrite abs_IZR. change (2 ^ 53)%Z with 9007199254740992%Z. apply Rabs_le. lra. }
    assert (EQ : IZR (K * j) / IZR P = IZR K * w) by (rewrite <- Ew; field; lra).
    rewrite f_div; [|lra|rewrite EQ; unfold big; apply Rabs_le; lra]. rewrite EQ. reflexivity.
  Qed.
End Bin.

(** ** bin_to_precision *)
Section Bin2.
  Context (L : libm) (j : Z) (d : nat) (W : usual_width j d).
  #[local] Instance FI3 : Num xr := F64 L.
  Let w := widthR j d.
  Lemma bin_elem_f64 x : Rabs x <= 1000 -> exists K e,
    bin_elem (width j d) (Fin x) = Fin (decimal j d K) /\
    IZR K <= x / w + 1 / 2 + / 1000000000000 + e < IZR K + 1 /\ Rabs e <= 6 * u * (Rabs (x / w) + 1) /\ Rabs (x / w) <= 10000000.
  Proof.
    intros Hx. pose proof (W_bounds j d W) as B. fold w in B.
    assert (T : Rabs (x / w) <= 10000000).
    { unfold Rdiv. rewrite Rabs_mult, Rabs_inv, (Rabs_pos_eq w) by lra. apply Rmult_le_reg_r with w; [lra|]. rewrite Rmult_assoc, Rinv_l by lra. lra. }
    destruct (stage1 L j d W x ltac:(fold w; lra)) as (K & e & E & I & S). fold w in I, S.
    exists K, e. split; [|auto]. unfold bin_elem. unfold FI2, FI3 in *. rewrite E. apply (stage2 L j d W). fold w.
    assert (X : x = x / w * w) by (field; lra). set (t := x / w) in *.
    apply Rabs_le_inv in S. assert (6 * u * (Rabs t + 1) <= / 100) by (unfold u; lra).
    apply Rabs_le_inv in Hx. apply Rabs_le. nra.
  Qed.
  Lemma not_below_eps : nltb (dec_val (width j d)) EPSILON = false.
  Proof.
    unfold FI3. rewrite f_dec, f_eps by exact W. change (rlt (rnd (widthR j d)) (rnd (/ 1000000000000)) = false). apply rlt_false.
    pose proof (W_bounds j d W). apply rnd_mono. lra.
  Qed.
  Lemma dec_err K : Rabs (decimal j d K - IZR K * w) <= Rabs (IZR K * w) * u + h.
  Proof. apply rnd_err. Qed.
  Lemma quot_err x y c : Rabs (x - y) <= c -> Rabs (x / w - y / w) <= c / w.
  Proof.
    intros H. pose proof (W_bounds j d W) as B. fold w in B. replace (x / w - y / w) with ((x - y) / w) by (field; lra).
    unfold Rdiv. rewrite Rabs_mult, Rabs_inv, (Rabs_pos_eq w) by lra. apply Rmult_le_compat_r; [|exact H]. apply Rlt_le, Rinv_0_lt_compat. lra.
  Qed.
  (** numbers close to a bin centre go there *)
  Lemma bin_near x K : Rabs x <= 1000 -> Rabs (x - IZR K * w) <= 4 / 10 * w -> bin_elem (width j d) (Fin x) = Fin (decimal j d K).
  Proof.
    intros Hx HK. pose proof (W_bounds j d W) as B. fold w in B. destruct (bin_elem_f64 x Hx) as (K' & e & -> & I & S & T).
    do 2 f_equal. apply quot_err in HK. replace (IZR K * w / w) with (IZR K) in HK by (field; lra). replace (4 / 10 * w / w) with (4 / 10) in HK by (field; lra).
    apply Rabs_le_inv in HK. apply Rabs_le_inv in S. assert (6 * u * (Rabs (x / w) + 1) <= / 100) by (unfold u; lra).
    assert (IZR K' < IZR K + 1) by lra. assert (IZR K < IZR K' + 1) by lra. rewrite <- plus_IZR in *.
    apply lt_IZR in H0. apply lt_IZR in H1. lia.
  Qed.
  Lemma bin_decimal K : Rabs (IZR K * w) <= 999 -> bin_elem (width j d) (Fin (decimal j d K)) = Fin (decimal j d K).
  Proof.
    intros H. pose proof (W_bounds j d W) as B. fold w in B. pose proof (dec_err K) as E. 
    assert (Rabs (IZR K * w) * u + h <= / 1000000000000) by (unfold u, h; lra).
    apply bin_near; [|lra]. apply Rabs_le_inv in E. apply Rabs_le_inv in H. apply Rabs_le. lra.
  Qed.
End Bin2.

(** ** rounding errors in units in the last place *)
Lemma err_pow e x : (-1000 <= e)%Z -> Rabs x < bpow radix2 e -> Rabs (rnd x - x) <= bpow radix2 (e - 54).
Proof.
  intros He Hx. unfold rnd. eapply Rle_trans; [apply error_le_half_ulp; apply FLT_exp_valid; reflexivity|].
  assert (U : ulp radix2 (FLT_exp (-1074) 53) x <= bpow radix2 (e - 53)).
  { destruct (Req_dec x 0) as [->|N].
    - rewrite ulp_FLT_0 by reflexivity. apply bpow_le. lia.
    - rewrite ulp_neq_0 by exact N. apply bpow_le. unfold cexp, FLT_exp. pose proof (mag_le_bpow radix2 x e N Hx). lia. }
  replace (bpow radix2 (e - 54)) with (/ 2 * bpow radix2 (e - 53)); [lra|].
  replace (e - 53)%Z with (e - 54 + 1)%Z by lia. rewrite bpow_plus. cbn. lra.
Qed.
Lemma err2 x : Rabs x < 2 -> Rabs (rnd x - x) <= u. Proof. intros H. pose proof (err_pow 1 x ltac:(lia) H) as E. cbn in E. unfold u. lra. Qed.
Lemma err4 x : Rabs x < 4 -> Rabs (rnd x - x) <= 2 * u. Proof. intros H. pose proof (err_pow 2 x ltac:(lia) H) as E. cbn in E. unfold u. lra. Qed.
Lemma err8 x : Rabs x < 8 -> Rabs (rnd x - x) <= 4 * u. Proof. intros H. pose proof (err_pow 3 x ltac:(lia) H) as E. cbn in E. unfold u. lra. Qed.
Lemma err16 x : Rabs x < 16 -> Rabs (rnd x - x) <= 8 * u. Proof. intros H. pose proof (err_pow 4 x ltac:(lia) H) as E. cbn in E. unfold u. lra. Qed.
Lemma lattice e x : (-1000 <= e)%Z -> bpow radix2 (e - 1) <= x -> generic_format radix2 (FLT_exp (-1074) 53) x ->
  exists n, x = IZR n * bpow radix2 (e - 53).
Proof.
  intros He Hx G. red in G. set (m := Ztrunc (scaled_mantissa radix2 (FLT_exp (-1074) 53) x)) in *.
  assert (P : 0 < x) by (pose proof (bpow_gt_0 radix2 (e - 1)); lra).
  assert (M : (e <= mag radix2 x)%Z). { apply mag_ge_bpow. rewrite Rabs_pos_eq by lra. exact Hx. }
  exists (m * 2 ^ (cexp radix2 (FLT_exp (-1074) 53) x - (e - 53)))%Z.
  rewrite G at 1. unfold F2R. cbn [Fnum Fexp].
  assert (C : (e - 53 <= cexp radix2 (FLT_exp (-1074) 53) x)%Z) by (unfold cexp, FLT_exp; lia).
  rewrite mult_IZR. set (c := cexp radix2 (FLT_exp (-1074) 53) x) in *.
  replace c with ((c - (e - 53)) + (e - 53))%Z at 1 by lia. rewrite bpow_plus, <- Rmult_assoc. f_equal. f_equal.
  replace (c - (e - 53))%Z with (Z.of_nat (Z.to_nat (c - (e - 53)))) by lia. rewrite <- IZR_Zpower_nat. f_equal. rewrite <- Zpower_nat_Z. reflexivity.
Qed.
Lemma lat4 x : 4 <= rnd x -> exists n, rnd x = IZR n * (8 * u).
Proof. intros H. destruct (lattice 3 (rnd x) ltac:(lia) ltac:(cbn; lra) (rnd_format x)) as (n & E). exists n. rewrite E at 1. f_equal. unfold u. cbn. lra. Qed.
Lemma lat8 x : 8 <= rnd x -> exists n, rnd x = IZR n * (16 * u).
Proof. intros H. destruct (lattice 4 (rnd x) ltac:(lia) ltac:(cbn; lra) (rnd_format x)) as (n & E). exists n. rewrite E at 1. f_equal. unfold u. cbn. lra. Qed.
Lemma lat_close a b m n g : 0 < g -> a = IZR m * g -> b = IZR n * g -> Rabs (a - b) < 2 * g -> Rabs (a - b) <= g.
Proof.
  intros G -> -> H. replace (IZR m * g - IZR n * g) with (IZR (m - n) * g) in * by (rewrite minus_IZR; ring).
  rewrite Rabs_mult, (Rabs_pos_eq g) in * by lra. rewrite <- abs_IZR in *.
  assert (IZR (Z.abs (m - n)) < 2) by (apply Rmult_lt_reg_r with g; assumption).
  apply lt_IZR in H0. assert (IZR (Z.abs (m - n)) <= 1) by (apply IZR_le; lia). nra.
Qed.
