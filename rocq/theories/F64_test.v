(** * The binning test in double precision *)
From Coq Require Import ZArith List Bool Reals Lia Lra Psatz.
From Flocq Require Import Core Sterbenz.
From Verif Require Import Base Num XR RList Binning_model Openquake_model F64 Spec_F64 F64_proofs.
Import ListNotations.
Open Scope R_scope.

(** a multiple of the bin width is a multiple of 1e-10: it keeps its distance to the integers *)
Lemma gap j d K n : usual_width j d -> IZR K * widthR j d < IZR n -> IZR K * widthR j d <= IZR n - / 10000000000.
Proof.
  intros (Hd & _) H. unfold widthR in *. set (P := (10 ^ Z.of_nat d)%Z) in *.
  assert (HP : (1 <= P)%Z) by (unfold P; change 1%Z with (10 ^ 0)%Z; apply Z.pow_le_mono_r; lia).
  assert (HQ : (P * 10 ^ (10 - Z.of_nat d) = 10000000000)%Z). { unfold P. rewrite <- Z.pow_add_r by lia. replace (Z.of_nat d + (10 - Z.of_nat d))%Z with 10%Z by lia. reflexivity. }
  set (Q := (10 ^ (10 - Z.of_nat d))%Z) in *.
  assert (N : IZR P <> 0) by (apply not_0_IZR; lia). assert (NQ : IZR Q <> 0) by (apply not_0_IZR; intros X; rewrite X in HQ; lia).
  assert (E : IZR K * (IZR j / IZR P) = IZR (K * j * Q) / 10000000000).
  { assert (T : 10000000000 = IZR P * IZR Q) by (rewrite <- mult_IZR, HQ; reflexivity). rewrite T, !mult_IZR. field. auto. }
  rewrite E in *. assert (IZR (K * j * Q) < IZR (n * 10000000000)) by (rewrite (mult_IZR n); lra).
  apply lt_IZR in H0. assert (IZR (K * j * Q) <= IZR (n * 10000000000 - 1)) by (apply IZR_le; lia). rewrite minus_IZR, (mult_IZR n) in H1. lra.
Qed.
Lemma gap_up j d K n : usual_width j d -> IZR n < IZR K * widthR j d -> IZR n + / 10000000000 <= IZR K * widthR j d.
Proof.
  intros W H. pose proof (gap j d (- K) (- n) W) as G. rewrite !opp_IZR in G. assert (- IZR K * widthR j d < - IZR n) by lra. specialize (G H0). lra.
Qed.
Definition u1 : R := rnd (/ 1000000000000000).
Lemma fl15 (L : libm) : @lit xr (F64 L) 1 15 = Fin (rnd (/ 1000000000000000)).
Proof.
  unfold lit. change (10 ^ Z.of_nat 15)%Z with 1000000000000000%Z. rewrite !f_ofZ by (cbn; lia).
  rewrite f_div; [|lra|unfold big; rewrite Rabs_pos_eq; lra]. do 2 f_equal. lra.
Qed.
Lemma fl16 (L : libm) : @lit xr (F64 L) 1 16 = Fin (rnd (/ 10000000000000000)).
Proof.
  unfold lit. change (10 ^ Z.of_nat 16)%Z with 10000000000000000%Z.
  assert (E : @ofZ xr (F64 L) 10000000000000000 = Fin (IZR 10000000000000000)).
  { change (fl (IZR 10000000000000000) = Fin (IZR 10000000000000000)). rewrite fl_fin by (unfold big; rewrite Rabs_pos_eq; lra). f_equal.
    apply rnd_id, generic_format_FLT. exists (Float radix2 5000000000000000 1); cbn [Fnum Fexp]; [unfold F2R; cbn; lra|cbn; lia|lia]. }
  rewrite E, f_ofZ by (cbn; lia).
  rewrite f_div; [|lra|unfold big; rewrite Rabs_pos_eq; lra]. do 2 f_equal. lra.
Qed.
(** the heart: two decimals below 8 whose exact difference is K * delta *)
Lemma diff_close j d K a b : usual_width j d -> Rabs a < 8 -> Rabs b < 8 -> a - b = IZR K * widthR j d -> b <= a ->
  let s := rnd (rnd a - rnd b) in let c := decimal j d K in
  0 <= s <= 17 /\ Rabs (s - (a - b)) <= 16 * u /\ Rabs (c - s) <= 90071 / 10000 * u + 90071 / 100000 * u * s.
Proof.
  intros W Ha Hb E Le s c.
  assert (S0 : 0 <= s). { unfold s. rewrite <- rnd_0. apply rnd_mono. pose proof (rnd_mono _ _ Le). lra. }
  assert (Ec : c = rnd (a - b)) by (unfold c, decimal; rewrite E; reflexivity). rewrite Ec. clear c Ec.
  assert (LO : forall n, a - b < IZR n -> a - b <= IZR n - / 10000000000) by (rewrite E; intros; apply gap; assumption).
  assert (UP : forall n, IZR n < a - b -> IZR n + / 10000000000 <= a - b) by (rewrite E; intros; apply gap_up; assumption).
  clear E. set (v := a - b) in *. assert (V0 : 0 <= v) by (unfold v; lra).
  pose proof (err8 a Ha) as A8. pose proof (err8 b Hb) as B8.
  apply Rabs_lt_inv in Ha. apply Rabs_lt_inv in Hb.
  assert (A4 : -4 < a < 4 -> Rabs (rnd a - a) <= 2 * u) by (intros X; apply err4, Rabs_lt; lra).
  assert (B4 : -4 < b < 4 -> Rabs (rnd b - b) <= 2 * u) by (intros X; apply err4, Rabs_lt; lra).
  set (xa := rnd a) in *. set (xb := rnd b) in *.
  apply Rabs_le_inv in A8. apply Rabs_le_inv in B8.
  assert (A4' : -4 < a < 4 -> - (2 * u) <= xa - a <= 2 * u) by (intros X; apply Rabs_le_inv, A4, X).
  assert (B4' : -4 < b < 4 -> - (2 * u) <= xb - b <= 2 * u) by (intros X; apply Rabs_le_inv, B4, X). clear A4 B4.
  assert (S2 : xa - xb < 2 -> - u <= s - (xa - xb) <= u). { intros X. apply Rabs_le_inv, err2, Rabs_lt. unfold u in *. lra. }
  assert (S4 : xa - xb < 4 -> - (2 * u) <= s - (xa - xb) <= 2 * u). { intros X. apply Rabs_le_inv, err4, Rabs_lt. unfold u in *. lra. }
  assert (S8 : xa - xb < 8 -> - (4 * u) <= s - (xa - xb) <= 4 * u). { intros X. apply Rabs_le_inv, err8, Rabs_lt. unfold u in *. lra. }
  assert (S16 : - (8 * u) <= s - (xa - xb) <= 8 * u).
  { apply Rabs_le_inv, err16, Rabs_lt. assert (v < 16) by (unfold v; lra). pose proof (LO 16%Z H). unfold v, u in *. lra. }
  assert (C2 : v < 2 -> - u <= rnd v - v <= u). { intros X. apply Rabs_le_inv, err2, Rabs_lt. lra. }
  assert (C4 : v < 4 -> - (2 * u) <= rnd v - v <= 2 * u). { intros X. apply Rabs_le_inv, err4, Rabs_lt. lra. }
  assert (C8 : v < 8 -> - (4 * u) <= rnd v - v <= 4 * u). { intros X. apply Rabs_le_inv, err8, Rabs_lt. lra. }
  assert (C16 : - (8 * u) <= rnd v - v <= 8 * u). { apply Rabs_le_inv, err16, Rabs_lt. unfold v. lra. }
  assert (U : u <= / 1000000000000000) by (unfold u; lra). assert (U0 : 0 < u) by (unfold u; lra).
  assert (SV : Rabs (s - v) <= 16 * u) by (apply Rabs_le; unfold v in *; lra).
  split; [split; [exact S0|apply Rabs_le_inv in SV; unfold v in SV; lra]|]. split; [exact SV|]. apply Rabs_le_inv in SV.
  assert (RH : v - / 1000 <= s) by lra. 
  assert (Us : u * (v - / 1000) <= u * s) by (apply Rmult_le_compat_l; lra).
  assert (Xv : v = a - b) by reflexivity. 
  destruct (Rlt_dec v 2) as [V2|V2]; [|destruct (Rlt_dec v 4) as [V4|V4]; [|destruct (Rlt_dec v 8) as [V8|V8]]].
  - specialize (C2 V2). pose proof (LO 2%Z V2) as G. specialize (S2 ltac:(lra)). assert (0 <= u * s) by (apply Rmult_le_pos; lra).
    destruct (Rlt_dec (Rabs a) 4) as [Aa|Aa]; [|destruct (Rlt_dec (Rabs b) 4) as [Bb|Bb]].
    + apply Rabs_lt_inv in Aa. specialize (A4' Aa). apply Rabs_le. lra.
    + apply Rabs_lt_inv in Bb. specialize (B4' Bb). apply Rabs_le. lra.
    + assert (X : s = xa - xb).
      { apply rnd_id. unfold Rabs in Aa, Bb. destruct (Rcase_abs a), (Rcase_abs b); try lra.
        - replace (xa - xb) with (- xb - - xa) by ring. apply sterbenz; [apply FLT_exp_valid; reflexivity|apply FLT_exp_monotone|apply generic_format_opp, rnd_format|apply generic_format_opp, rnd_format|lra].
        - apply sterbenz; [apply FLT_exp_valid; reflexivity|apply FLT_exp_monotone|apply rnd_format|apply rnd_format|lra]. }
      apply Rabs_le. lra.
  - specialize (C4 V4). pose proof (LO 4%Z V4) as G. specialize (S4 ltac:(lra)). assert (u * (2 - / 1000) <= u * (v - / 1000)) by (apply Rmult_le_compat_l; lra).
    destruct (Rlt_dec (Rabs a) 4) as [Aa|Aa]; [|destruct (Rlt_dec (Rabs b) 4) as [Bb|Bb]].
    + apply Rabs_lt_inv in Aa. specialize (A4' Aa). apply Rabs_le. lra.
    + apply Rabs_lt_inv in Bb. specialize (B4' Bb). apply Rabs_le. lra.
    + assert (X : s = xa - xb).
      { apply rnd_id. unfold Rabs in Aa, Bb. destruct (Rcase_abs a), (Rcase_abs b); try lra.
        - replace (xa - xb) with (- xb - - xa) by ring. apply sterbenz; [apply FLT_exp_valid; reflexivity|apply FLT_exp_monotone|apply generic_format_opp, rnd_format|apply generic_format_opp, rnd_format|lra].
        - apply sterbenz; [apply FLT_exp_valid; reflexivity|apply FLT_exp_monotone|apply rnd_format|apply rnd_format|lra]. }
      apply Rabs_le. lra.
  - specialize (C8 V8). pose proof (LO 8%Z V8) as G. specialize (S8 ltac:(lra)). assert (u * (4 - / 1000) <= u * (v - / 1000)) by (apply Rmult_le_compat_l; lra).
    assert (E6 : - (6 * u) <= (xa - xb) - v <= 6 * u).
    { destruct (Rlt_dec (Rabs a) 4) as [Aa|Aa]; [apply Rabs_lt_inv in Aa; specialize (A4' Aa); lra|].
      destruct (Rlt_dec (Rabs b) 4) as [Bb|Bb]; [apply Rabs_lt_inv in Bb; specialize (B4' Bb); lra|].
      exfalso. unfold Rabs in Aa, Bb. destruct (Rcase_abs a), (Rcase_abs b); lra. }
    destruct (Req_dec v 4) as [Q|Q].
    + assert (rnd v = 4) by (rewrite Q; apply (rnd_int 4); cbn; lia). apply Rabs_le. lra.
    + pose proof (UP 4%Z ltac:(lra)) as G4.
      destruct (lat4 v ltac:(unfold u in *; lra)) as (m & M). destruct (lat4 (xa - xb) ltac:(fold s; unfold u in *; lra)) as (n & N). fold s in N.
      assert (Rabs (rnd v - s) <= 8 * u) by (apply (lat_close _ _ m n); [lra|exact M|exact N|apply Rabs_lt; lra]). lra.
  - assert (u * (8 - / 1000) <= u * (v - / 1000)) by (apply Rmult_le_compat_l; lra).
    destruct (Req_dec v 8) as [Q|Q].
    + assert (rnd v = 8) by (rewrite Q; apply (rnd_int 8); cbn; lia). apply Rabs_le. lra.
    + pose proof (UP 8%Z ltac:(lra)) as G8.
      destruct (lat8 v ltac:(unfold u in *; lra)) as (m & M). destruct (lat8 (xa - xb) ltac:(fold s; unfold u in *; lra)) as (n & N). fold s in N.
      assert (Rabs (rnd v - s) <= 16 * u) by (apply (lat_close _ _ m n); [lra|exact M|exact N|apply Rabs_lt; lra]). lra.
Qed.

Section Test.
  Context (L : libm).
  #[local] Instance FI4 : Num xr := F64 L.
  Lemma known_in rs r : In (Some r) rs <-> In r (known rs).
  Proof.
    induction rs as [|[x|] t IH]; cbn [In known]; [tauto| |].
    - rewrite IH. split; (intros [A|A]; [left|right; exact A]); congruence.
    - rewrite IH. split; [intros [A|A]; [discriminate|exact A]|auto].
  Qed.
  Lemma filter_sample rs : filter (fun v => negb (nisnan v)) (sample rs) = map Fin (map rnd (known rs)).
  Proof.
    unfold FI4. induction rs as [|[r|] t IH]; [reflexivity| |]; cbn [sample map filter known].
    - change (nisnan (Fin (nearest_double r))) with false. cbn [negb map]. f_equal. exact IH.
    - exact IH.
  Qed.
  Lemma rnd_min x l : Rminl (rnd x) (map rnd l) = rnd (Rminl x l).
  Proof.
    revert x. unfold Rminl. induction l as [|a l IH]; intros x; [reflexivity|]. cbn [map fold_left]. rewrite <- IH. f_equal.
    destruct (Rle_dec x a) as [A|A].
    - rewrite !Rmin_left; [reflexivity|exact A|apply rnd_mono, A].
    - rewrite !Rmin_right; [reflexivity|lra|apply rnd_mono; lra].
  Qed.
  Lemma f_amin x l : amin (Fin x) (map Fin l) = Fin (Rminl x l).
  Proof. exact (x_amin x l). Qed.
  Lemma Rminl_le' l : forall x y, x = y \/ In y l -> Rminl x l <= y.
  Proof.
    unfold Rminl. induction l as [|a l IH]; intros x y; cbn [fold_left In].
    - intros [->|[]]. lra.
    - intros [->|[->|H]]; [| |apply IH; auto].
      + eapply Rle_trans; [apply IH; left; reflexivity|apply Rmin_l].
      + eapply Rle_trans; [apply IH; left; reflexivity|apply Rmin_r].
  Qed.
  Lemma Rminl_in' l : forall x, Rminl x l = x \/ In (Rminl x l) l.
  Proof.
    unfold Rminl. induction l as [|a l IH]; intros x; cbn [fold_left In]; [auto|].
    destruct (IH (Rmin x a)) as [E|E]; [|auto]. rewrite E. destruct (Rle_dec x a); [rewrite Rmin_left by lra; auto|rewrite Rmin_right by lra; auto].
  Qed.
  (** drop NaN, subtract the smallest value *)
  Lemma shift_sample rs r0 rt : known rs = r0 :: rt -> (forall r, In r (known rs) -> Rabs r <= 1000) ->
    shift_to_min (sample rs) = Ok (map (fun r => Fin (rnd (rnd r - rnd (Rminl r0 rt)))) (known rs)).
  Proof.
    intros E B. unfold shift_to_min. rewrite filter_sample, E. cbn [map]. rewrite f_amin, rnd_min.
    change (Ok (map (fun v => nsub v (Fin (rnd (Rminl r0 rt)))) (map Fin (map rnd (r0 :: rt)))) = Ok (map (fun r => Fin (rnd (rnd r - rnd (Rminl r0 rt)))) (r0 :: rt))).
    f_equal. rewrite !map_map. apply map_ext_in. intros r Hr. rewrite <- E in Hr. unfold FI4. apply f_sub.
    assert (M : In (Rminl r0 rt) (known rs)) by (rewrite E; destruct (Rminl_in' rt r0) as [->|I]; [left; reflexivity|right; exact I]).
    pose proof (rnd_err_le r 1000 (B r Hr)) as E1. pose proof (rnd_err_le _ 1000 (B _ M)) as E2.
    pose proof (B r Hr) as B1. pose proof (B _ M) as B2. unfold u, h in *. apply Rabs_le_inv in E1, E2, B1, B2. apply Rabs_le. unfold big. lra.
  Qed.
  Lemma tol_le j d : usual_width j d -> nltb (dec_val (width j d)) (lit 1 15) = false.
  Proof.
    intros W. unfold FI4. rewrite f_dec, fl15 by exact W. apply rlt_false. pose proof (W_bounds j d W). apply rnd_mono. lra.
  Qed.
  Lemma test_unfold j d rs s : usual_width j d -> shift_to_min (sample rs) = Ok s -> rs <> [] ->
    binning_test (sample rs) (width j d) (lit 1 15) false = Ok (forallb (fun v => isclose (bin_elem (width j d) v) v (lit 1 16) (lit 1 15)) s).
  Proof.
    intros W E N. unfold binning_test. destruct rs as [|o rs']; [congruence|]. cbn [sample map]. cbn [sample map] in E. rewrite E. cbn [rbind].
    rewrite andb_false_r. unfold binning_test_delta. rewrite (tol_le j d W). unfold bin_to_precision. pose proof (not_below_eps L j d W) as X. unfold FI3 in X. unfold FI4. rewrite X.
    cbn [rbind]. rewrite andb_false_r. f_equal. unfold allclose. generalize s. intros l. induction l as [|a l IH]; [reflexivity|]. cbn [map zip forallb fst snd]. rewrite IH. reflexivity.
  Qed.
  Lemma rhs_bound s : 0 <= s <= 2000 -> exists z, nadd (lit 1 15) (nmul (lit 1 16) (nabs (Fin s))) = Fin (rnd z) /\
    90071 / 10000 * u + 90071 / 100000 * u * s <= z <= 2 / 1000000000000.
  Proof.
    intros S. unfold FI4. rewrite fl15, fl16. change (nabs (Fin s)) with (Fin (Rabs s)). rewrite (Rabs_pos_eq s) by lra.
    pose proof (rnd_err_le (/ 1000000000000000) (/ 1000000000000000) ltac:(rewrite Rabs_pos_eq; lra)) as E1. pose proof (rnd_err_le (/ 10000000000000000) (/ 10000000000000000) ltac:(rewrite Rabs_pos_eq; lra)) as E2.
    set (a := rnd (/ 1000000000000000)) in *. set (b := rnd (/ 10000000000000000)) in *. apply Rabs_le_inv in E1, E2.
    assert (B : 0 <= b * s <= / 1000000000000) by (unfold u, h in *; split; nra).
    rewrite f_mul by (unfold big; apply Rabs_le; lra).
    pose proof (rnd_err_le (b * s) (b * s) ltac:(rewrite Rabs_pos_eq; lra)) as E3. apply Rabs_le_inv in E3.
    exists (a + rnd (b * s)). rewrite f_add by (unfold big, u, h in *; apply Rabs_le; lra). split; [reflexivity|].
    split; [|unfold u, h in *; lra].
    assert (X : 900711 / 1000000 * u <= b) by (unfold u, h in *; lra).
    assert (Y : 900711 / 1000000 * u * s <= b * s) by (apply Rmult_le_compat_r; lra).
    assert (Z : 0 <= u * s) by (apply Rmult_le_pos; unfold u; lra).
    assert (900711 / 1000000 * u * s * (1 - u) <= b * s * (1 - u)) by (apply Rmult_le_compat_r; [unfold u; lra|exact Y]).
    assert (u * s * u <= u * s * / 1000000000) by (apply Rmult_le_compat_l; [exact Z|unfold u; lra]).
    assert (A9 : 900712 / 100000 * u <= a) by (unfold u, h in *; lra).
    assert (h <= / 1000000000 * u) by (unfold u, h; lra). lra.
  Qed.
  Lemma isclose_fin a b : 0 <= b <= 2000 -> Rabs a <= 3000 -> exists z, isclose (Fin a) (Fin b) (lit 1 16) (lit 1 15) = rle (Rabs (rnd (a - b))) (rnd z) /\
    90071 / 10000 * u + 90071 / 100000 * u * b <= z <= 2 / 1000000000000.
  Proof.
    intros B A. destruct (rhs_bound b B) as (z & E & I). exists z. split; [|exact I]. unfold isclose.
    change (nfinite (Fin a) && nfinite (Fin b)) with true. cbv iota. rewrite E.
    assert (X : nsub (Fin a) (Fin b) = Fin (rnd (a - b))). { unfold FI4. apply f_sub. apply Rabs_le_inv in A. unfold big. apply Rabs_le. lra. }
    rewrite X. reflexivity.
  Qed.
  (** a sample of decimals below 8 on a grid of width delta passes *)
  Lemma test_accepts j d rs : usual_width j d -> known rs <> [] -> (forall r, In r (known rs) -> Rabs r < 8) ->
    (forall r r', In r (known rs) -> In r' (known rs) -> exists K, r - r' = IZR K * widthR j d) ->
    binning_test (sample rs) (width j d) (lit 1 15) false = Ok true.
  Proof.
    intros W N B G. destruct (known rs) as [|r0 rt] eqn:E; [congruence|].
    assert (NE : rs <> []) by (intros ->; discriminate E). rewrite <- E in *.
    rewrite (test_unfold j d rs _ W (shift_sample rs r0 rt E ltac:(intros r Hr; pose proof (B r Hr); lra)) NE).
    f_equal. apply forallb_forall. intros v Hv. apply in_map_iff in Hv. destruct Hv as (r & <- & Hr).
    assert (M : In (Rminl r0 rt) (known rs)) by (rewrite E; destruct (Rminl_in' rt r0) as [->|I]; [left; reflexivity|right; exact I]).
    assert (Le : Rminl r0 rt <= r) by (apply Rminl_le'; rewrite E in Hr; exact Hr). set (m := Rminl r0 rt) in *.
    destruct (G r m Hr M) as (K & EK). destruct (diff_close j d K r m W (B r Hr) (B m M) EK Le) as (S & SV & C). cbv zeta in *. set (s := rnd (rnd r - rnd m)) in *.
    pose proof (W_bounds j d W) as WB. pose proof (bin_near L j d W s K) as BN. unfold FI3 in BN. unfold FI4. rewrite BN.
    2:{ apply Rabs_le; lra. }
    2:{ rewrite <- EK. unfold u in SV. lra. }
    destruct (isclose_fin (decimal j d K) s) as (z & X & Z1 & Z2); [lra| |].
    { apply Rabs_le_inv in C. apply Rabs_le. assert (u * s <= u * 17) by (apply Rmult_le_compat_l; unfold u; lra). unfold u in *. lra. }
    unfold FI4 in X. rewrite X. apply rle_true. rewrite rnd_abs. replace (rnd (Rabs (rnd (decimal j d K - s)))) with (rnd (Rabs (decimal j d K - s))).
    - apply rnd_mono. lra.
    - rewrite rnd_abs. symmetry. apply rnd_id, rnd_format.
  Qed.
End Test.

Lemma Ok_inj {A} (a b : A) : Ok a = Ok b -> a = b. Proof. intros H. congruence. Qed.
Section Sound.
  Context (L : libm).
  #[local] Instance FI5 : Num xr := F64 L.
  (** a sample that passes is on a grid *)
  Lemma test_sound j d rs : usual_width j d -> known rs <> [] -> (forall r, In r (known rs) -> Rabs r <= 100) ->
    binning_test (sample rs) (width j d) (lit 1 15) false = Ok true ->
    forall r r', In r (known rs) -> In r' (known rs) -> exists K, Rabs (nearest_double r - nearest_double r' - IZR K * widthR j d) <= / 100000000000.
  Proof.
    intros W N B T. destruct (known rs) as [|r0 rt] eqn:E; [congruence|].
    assert (NE : rs <> []) by (intros ->; discriminate E). rewrite <- E in *.
    pose proof (test_unfold L j d rs _ W (shift_sample L rs r0 rt E ltac:(intros r Hr; pose proof (B r Hr); lra)) NE) as U.
    unfold FI4 in U. unfold FI5 in T. rewrite U in T. apply Ok_inj in T. rewrite forallb_forall in T.
    set (m := Rminl r0 rt) in *.
    assert (M : In m (known rs)) by (rewrite E; destruct (Rminl_in' rt r0) as [X|I]; [left; unfold m; congruence|right; exact I]).
    assert (A : forall r, In r (known rs) -> exists K, Rabs (nearest_double r - nearest_double m - IZR K * widthR j d) <= 4 / 1000000000000).
    { intros r Hr. specialize (T (Fin (rnd (rnd r - rnd m)))).
      assert (I : In (Fin (rnd (rnd r - rnd m))) (map (fun r => Fin (rnd (rnd r - rnd m))) (known rs))) by (apply in_map_iff; eauto).
      specialize (T I). assert (Le : m <= r) by (apply Rminl_le'; rewrite E in Hr; exact Hr).
      pose proof (B r Hr) as B1. pose proof (B m M) as B2. pose proof (rnd_err_le r 100 B1) as E1. pose proof (rnd_err_le m 100 B2) as E2.
      assert (S0 : 0 <= rnd r - rnd m) by (pose proof (rnd_mono _ _ Le); lra).
      apply Rabs_le_inv in B1, B2, E1, E2.
      assert (S1 : rnd r - rnd m <= 201) by (unfold u, h in *; lra).
      pose proof (rnd_err_le (rnd r - rnd m) 201 ltac:(rewrite Rabs_pos_eq; lra)) as E3.
      assert (S2 : 0 <= rnd (rnd r - rnd m)) by (rewrite <- rnd_0; apply rnd_mono; exact S0).
      set (s := rnd (rnd r - rnd m)) in *. apply Rabs_le_inv in E3.
      destruct (bin_elem_f64 L j d W s) as (K & e & EB & I1 & I2 & I3). { unfold u, h in *. apply Rabs_le. lra. }
      unfold FI3 in EB. rewrite EB in T.
      pose proof (W_bounds j d W) as WB. 
      assert (KW : Rabs (IZR K * widthR j d) <= 220).
      { apply Rabs_le_inv in I2. assert (6 * u * (Rabs (s / widthR j d) + 1) <= / 100) by (unfold u; lra).
        assert (X : s = s / widthR j d * widthR j d) by (field; lra). set (t := s / widthR j d) in *. unfold u, h in E3. apply Rabs_le. nra. }
      pose proof (dec_err j d K) as E4. 
      assert (E5 : Rabs (decimal j d K - IZR K * widthR j d) <= / 10000000000000) by (unfold u, h in *; lra). clear E4. apply Rabs_le_inv in E5, KW.
      destruct (isclose_fin L (decimal j d K) s) as (z & X & Z1 & Z2); [unfold u, h in *; lra|apply Rabs_le; lra|].
      unfold FI4 in X. rewrite X in T. apply rle_true in T.
      assert (Zr : rnd z <= 3 / 1000000000000).
      { assert (0 <= z) by (pose proof (Rmult_le_pos u s ltac:(unfold u; lra) S2); unfold u in *; lra).
        pose proof (rnd_err_le z (2 / 1000000000000) ltac:(rewrite Rabs_pos_eq; lra)) as E6. apply Rabs_le_inv in E6. unfold u, h in *. lra. }
      pose proof (rnd_err_le (decimal j d K - s) 500 ltac:(unfold u, h in *; apply Rabs_le; lra)) as E7.
      apply Rabs_le_inv in E7. assert (T' : Rabs (rnd (decimal j d K - s)) <= 3 / 1000000000000) by lra. apply Rabs_le_inv in T'.
      exists K. change (nearest_double r) with (rnd r). change (nearest_double m) with (rnd m). unfold u, h in *. apply Rabs_le. lra. }
    intros r r' Hr Hr'. destruct (A r Hr) as (K & EK). destruct (A r' Hr') as (K' & EK'). exists (K - K')%Z. rewrite minus_IZR.
    apply Rabs_le_inv in EK, EK'. apply Rabs_le. lra.
  Qed.
End Sound.

(** ** a computed rounding *)
Lemma rnd_is x m e : (-1000 <= e)%Z -> (2 ^ 52 < m < 2 ^ 53)%Z -> Rabs (x - IZR m * bpow radix2 e) < / 2 * bpow radix2 e ->
  rnd x = IZR m * bpow radix2 e.
Proof.
  intros He Hm Hx. set (y := IZR m * bpow radix2 e) in *.
  assert (P : 0 < bpow radix2 e) by apply bpow_gt_0.
  pose proof Hx as Hx'. apply Rabs_lt_inv in Hx'.
  assert (Y0 : bpow radix2 (e + 52) <= x).
  { rewrite Z.add_comm, bpow_plus. change (bpow radix2 52) with (IZR (2 ^ 52)).
    assert (M1 : IZR (2 ^ 52) + 1 <= IZR m) by (rewrite <- plus_IZR; apply IZR_le; lia).
    apply Rle_trans with ((IZR m - 1) * bpow radix2 e); [apply Rmult_le_compat_r; lra|]. unfold y in Hx'. lra. }
  assert (Y1 : x < bpow radix2 (e + 53)).
  { rewrite Z.add_comm, bpow_plus. change (bpow radix2 53) with (IZR (2 ^ 53)).
    assert (M1 : IZR m + 1 <= IZR (2 ^ 53)) by (rewrite <- plus_IZR; apply IZR_le; lia).
    apply Rlt_le_trans with ((IZR m + 1) * bpow radix2 e); [|apply Rmult_le_compat_r; lra]. unfold y in Hx'. lra. }
  assert (MG : mag radix2 x = (e + 53)%Z :> Z).
  { apply mag_unique. rewrite Rabs_pos_eq by (pose proof (bpow_gt_0 radix2 (e + 52)); lra). replace (e + 53 - 1)%Z with (e + 52)%Z by lia. split; [lra|exact Y1]. }
  unfold rnd, round, F2R, scaled_mantissa, cexp. rewrite MG. cbn [Fnum Fexp].
  replace (FLT_exp (-1074) 53 (e + 53)) with e by (unfold FLT_exp; lia). unfold y. do 2 f_equal. 
  apply Znearest_imp. rewrite bpow_opp. apply Rmult_lt_reg_r with (bpow radix2 e); [exact P|].
  rewrite <- (Rabs_pos_eq (bpow radix2 e)) at 2 by lra. rewrite <- Rabs_mult.
  replace ((x * / bpow radix2 e - IZR m) * bpow radix2 e) with (x - y) by (unfold y; field; lra). exact Hx.
Qed.
