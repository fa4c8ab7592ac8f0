(** * C65, C66, C28: simulated and dithered magnitudes, Lilliefors test *)
From Coq Require Import Reals Lra List Sorted Permutation Bool Lia ZArith.
From Verif Require Import Base Num XR SortLib RList Binning_model Spec_Binning Binning_proofs BinTest_proofs Fmd_proofs Props_Binning
  BValue_model BValue_run Spec_BValue BValue_real BValue_proofs Props_BValue Simulate_model Spec_Simulate.
Import ListNotations.
Open Scope R_scope.

(** ** the value produced from one uniform number *)
Definition quantile (beta mc M u : R) : R := - (1 / beta) * ln (1 - (1 - exp (- beta * mc) + u * (1 - exp (- beta * M) - (1 - exp (- beta * mc))))).
Lemma quantile_arg beta mc M u : 0 < beta -> mc < M -> 0 <= u < 1 ->
  exp (- beta * M) < 1 - (1 - exp (- beta * mc) + u * (1 - exp (- beta * M) - (1 - exp (- beta * mc)))) <= exp (- beta * mc).
Proof.
  intros Hb HM Hu. assert (exp (- beta * M) < exp (- beta * mc)) by (apply exp_increasing; nra). nra.
Qed.
Lemma ln_le_mono a b : 0 < a -> a <= b -> ln a <= ln b.
Proof. intros Ha [H|H]; [left; apply ln_increasing; assumption|subst; right; reflexivity]. Qed.
Lemma quantile_bounds beta mc M u : 0 < beta -> mc < M -> 0 <= u < 1 -> mc <= quantile beta mc M u < M.
Proof.
  intros Hb HM Hu. destruct (quantile_arg beta mc M u Hb HM Hu) as [A B]. unfold quantile. set (x := 1 - _) in *.
  pose proof (exp_pos (- beta * M)) as P. assert (L1 : - beta * M < ln x) by (rewrite <- (ln_exp (- beta * M)); apply ln_increasing; lra).
  assert (L2 : ln x <= - beta * mc) by (rewrite <- (ln_exp (- beta * mc)); apply ln_le_mono; lra).
  assert (E : - (1 / beta) * ln x = - ln x / beta) by (field; lra). rewrite E. split.
  - apply Rmult_le_reg_r with beta; [exact Hb|]. replace (- ln x / beta * beta) with (- ln x) by (field; lra). lra.
  - apply Rmult_lt_reg_r with beta; [exact Hb|]. replace (- ln x / beta * beta) with (- ln x) by (field; lra). lra.
Qed.
Lemma quantile_cdf beta mc M u : 0 < beta -> mc < M -> 0 <= u < 1 -> trunc_cdf beta mc M (quantile beta mc M u) = u.
Proof.
  intros Hb HM Hu. destruct (quantile_arg beta mc M u Hb HM Hu) as [A B]. unfold quantile, trunc_cdf, exp_cdf. set (x := 1 - _) in *.
  pose proof (exp_pos (- beta * M)) as P. pose proof (exp_pos (- beta * mc)) as P2.
  assert (E1 : exp (- beta * (- (1 / beta) * ln x - mc)) = x / exp (- beta * mc)).
  { replace (- beta * (- (1 / beta) * ln x - mc)) with (ln x + - (- beta * mc)) by (field; lra). rewrite exp_plus, exp_Ropp, exp_ln by lra. reflexivity. }
  assert (E2 : exp (- beta * (M - mc)) = exp (- beta * M) / exp (- beta * mc)).
  { replace (- beta * (M - mc)) with (- beta * M + - (- beta * mc)) by ring. rewrite exp_plus, exp_Ropp. reflexivity. }
  rewrite E1, E2. assert (exp (- beta * M) < exp (- beta * mc)) by (apply exp_increasing; nra).
  unfold x. field. split; [lra|]. lra.
Qed.
Lemma sim_truncated u e n beta mc M : 0 < beta -> mc < M -> M <> 0 -> (forall i, 0 <= u i < 1) ->
  simulate_magnitudes (fun i => Fin (u i)) e n (Fin beta) (Fin mc) (Some (Fin M))
  = map (fun i => Fin (quantile beta mc M (u i))) (seq 0 n).
Proof.
  intros Hb HM Hz Hu. unfold simulate_magnitudes, truthy. rewrite x_zero, x_eqb, (proj2 (req_false M 0) Hz).
  apply map_ext. intros i. rewrite x_opp, !x_mul, !x_exp, x_one, !x_sub, x_mul, x_add, x_sub.
  destruct (quantile_arg beta mc M (u i) Hb HM (Hu i)) as [A _]. pose proof (exp_pos (- beta * M)).
  rewrite x_ln by lra. rewrite x_div by lra. rewrite x_opp, x_mul. reflexivity.
Qed.
Lemma sim_free u e n beta mc mm : 0 < beta -> mm = None \/ mm = Some (Fin 0) ->
  simulate_magnitudes u (fun i => Fin (e i)) n (Fin beta) (Fin mc) mm = map (fun i => Fin (e i / beta + mc)) (seq 0 n).
Proof.
  intros Hb Hm. unfold simulate_magnitudes. assert (T : truthy mm = None).
  { destruct Hm; subst mm; [reflexivity|]. unfold truthy. rewrite x_zero, x_eqb, (proj2 (req_true 0 0)) by reflexivity. reflexivity. }
  rewrite T. apply map_ext. intros i. rewrite x_one, x_div by lra. rewrite x_mul, x_add. f_equal. field. lra.
Qed.

(** ** C65 *)
Theorem C65_truncated : forall u e n beta mc M, 0 < beta -> mc < M -> M <> 0 -> (forall i, 0 <= u i < 1) ->
  exists ms, simulate_magnitudes (fun i => Fin (u i)) e n (Fin beta) (Fin mc) (Some (Fin M)) = map Fin ms /\ length ms = n /\
    (forall i, (i < n)%nat -> mc <= nth i ms 0 < M /\ trunc_cdf beta mc M (nth i ms 0) = u i) /\
    (forall i j, (i < n)%nat -> (j < n)%nat -> u i < u j -> nth i ms 0 < nth j ms 0).
Proof.
  intros u e n beta mc M Hb HM Hz Hu. exists (map (fun i => quantile beta mc M (u i)) (seq 0 n)).
  rewrite sim_truncated by assumption. rewrite map_map, map_length, seq_length.
  assert (Q : forall i, (i < n)%nat -> nth i (map (fun i => quantile beta mc M (u i)) (seq 0 n)) 0 = quantile beta mc M (u i)).
  { intros i Hi. rewrite nth_indep with (d' := (fun i => quantile beta mc M (u i)) 0%nat) by (rewrite map_length, seq_length; exact Hi).
    rewrite (map_nth (fun i => quantile beta mc M (u i))), seq_nth by exact Hi. reflexivity. }
  split; [reflexivity|]. split; [reflexivity|]. split.
  - intros i Hi. rewrite Q by exact Hi. split; [apply quantile_bounds|apply quantile_cdf]; auto.
  - intros i j Hi Hj L. rewrite !Q by assumption.
    pose proof (quantile_arg beta mc M (u i) Hb HM (Hu i)) as [A1 _]. pose proof (quantile_arg beta mc M (u j) Hb HM (Hu j)) as [A2 _].
    pose proof (exp_pos (- beta * M)). unfold quantile.
    assert (exp (- beta * M) < exp (- beta * mc)) by (apply exp_increasing; nra).
    set (x := 1 - _) in *. set (y := 1 - _) in A2 |- *. assert (LN : ln y < ln x) by (apply ln_increasing; [lra|unfold x, y; nra]).
    assert (0 < 1 / beta) by (apply Rdiv_lt_0_compat; lra). nra.
Qed.
Print Assumptions C65_truncated.
(** without truncation the simulated magnitude follows the exponential distribution: if the
    draw of the standard exponential distribution is the [v]-quantile, so is the magnitude *)
Theorem C65_untruncated : forall u e n beta mc, 0 < beta -> (forall i, 0 <= e i) ->
  exists ms, simulate_magnitudes u (fun i => Fin (e i)) n (Fin beta) (Fin mc) None = map Fin ms /\ length ms = n /\
    forall i, (i < n)%nat -> mc <= nth i ms 0 /\ exp_cdf beta mc (nth i ms 0) = exp_cdf 1 0 (e i).
Proof.
  intros u e n beta mc Hb He. exists (map (fun i => e i / beta + mc) (seq 0 n)). rewrite sim_free by auto. rewrite map_map, map_length, seq_length.
  split; [reflexivity|]. split; [reflexivity|]. intros i Hi.
  rewrite nth_indep with (d' := (fun i => e i / beta + mc) 0%nat) by (rewrite map_length, seq_length; exact Hi).
  rewrite (map_nth (fun i => e i / beta + mc)), seq_nth by exact Hi. cbn [plus]. split.
  - assert (0 <= e i / beta) by (apply Rle_mult_inv_pos; [apply He|exact Hb]). lra.
  - unfold exp_cdf. f_equal. f_equal. field. lra.
Qed.
Print Assumptions C65_untruncated.
(** a maximum magnitude of exactly 0 is ignored: every draw beyond the distance to 0 gives a
    magnitude above the maximum *)
Theorem C81_mag_max_zero_refuted : forall u e n beta mc i, 0 < beta -> mc < 0 -> (i < n)%nat -> - mc * beta < e i ->
  exists ms, simulate_magnitudes u (fun i => Fin (e i)) n (Fin beta) (Fin mc) (Some (Fin 0)) = map Fin ms /\ 0 < nth i ms 0.
Proof.
  intros u e n beta mc i Hb Hc Hi He. exists (map (fun i => e i / beta + mc) (seq 0 n)). rewrite sim_free by auto. rewrite map_map. split; [reflexivity|].
  rewrite nth_indep with (d' := (fun i => e i / beta + mc) 0%nat) by (rewrite map_length, seq_length; exact Hi).
  rewrite (map_nth (fun i => e i / beta + mc)), seq_nth by exact Hi. cbn [plus].
  assert (- mc < e i / beta); [|lra]. apply Rmult_lt_reg_r with beta; [exact Hb|]. replace (e i / beta * beta) with (e i) by (field; lra). exact He.
Qed.
Print Assumptions C81_mag_max_zero_refuted.
Example C65_example : exists ms, simulate_magnitudes (fun i => Fin (INR i / 2)) (fun _ => NaN) 2 (Fin 1) (Fin 1) (Some (Fin 2)) = map Fin ms /\ nth 0 ms 0 = 1.
Proof.
  unfold simulate_magnitudes, truthy. rewrite x_zero, x_eqb, (proj2 (req_false 2 0)) by lra.
  exists (map (fun i => quantile 1 1 2 (INR i / 2)) (seq 0 2)). split.
  - rewrite map_map. apply map_ext_in. intros i Hi. apply in_seq in Hi.
    assert (Hu : 0 <= INR i / 2 < 1) by (destruct i as [|[|i]]; [simpl; lra|simpl; lra|lia]).
    rewrite x_opp, !x_mul, !x_exp, x_one, !x_sub, x_mul, x_add, x_sub.
    destruct (quantile_arg 1 1 2 _ ltac:(lra) ltac:(lra) Hu) as [A _]. pose proof (exp_pos (- (1) * 2)).
    rewrite x_ln by lra. rewrite x_div by lra. rewrite x_opp, x_mul. reflexivity.
  - cbn [seq map nth INR]. unfold quantile. replace (1 - (1 - exp (- (1) * 1) + 0 / 2 * (1 - exp (- (1) * 2) - (1 - exp (- (1) * 1))))) with (exp (- (1) * 1)) by field.
    rewrite ln_exp. lra.
Qed.

(** ** C66 *)
Theorem C66_binned_simulation : forall u e n b mc delta par, 0 < b -> par <> POther -> epsR <= decR delta ->
  (forall i, 0 <= e i) -> (exists k : Z, mc = IZR k * decR delta) ->
  exists ms, simulate_magnitudes_binned u (fun i => Fin (e i)) n (Fin b) (Fin mc) delta None par = Ok (map Fin ms) /\ length ms = n /\
    forall m, In m ms -> mc <= m /\ exists k : Z, m = IZR k * decR delta.
Proof.
  intros u e n b mc delta par Hb Hp Hd He [k Hk]. pose proof epsR_bounds as Eb. assert (L10 : 0 < ln 10) by (rewrite <- ln_1; apply ln_increasing; lra).
  unfold simulate_magnitudes_binned.
  assert (B : exists beta, 0 < beta /\ match par with PB => Ok (nmul (Fin b) (nln (ofZ 10))) | PBeta => Ok (Fin b) | POther => Err ValueError end = Ok (Fin beta)).
  { destruct par; [exists (b * ln 10)|exists b|congruence]; split; try nra.
    - rewrite x_ofZ, x_ln by lra. rewrite x_mul. reflexivity.
    - reflexivity. }
  destruct B as (beta & Hbeta & ->). cbn [rbind]. rewrite x_dec_val, x_two, x_div, x_sub, x_zero, x_ltb by lra.
  rewrite (proj2 (rlt_true 0 (decR delta))) by lra. rewrite sim_free by auto.
  rewrite <- (map_map (fun i => e i / beta + (mc - decR delta / 2)) Fin). rewrite bin_to_precision_fin by exact Hd.
  eexists. split; [reflexivity|]. rewrite !map_length, seq_length. split; [reflexivity|].
  intros m Hm. apply in_map_iff in Hm. destruct Hm as (x & <- & Hx). apply in_map_iff in Hx. destruct Hx as (i & <- & _).
  assert (E0 : 0 <= e i / beta) by (apply Rle_mult_inv_pos; [apply He|exact Hbeta]).
  split; [|destruct (binR_near (decR delta) (e i / beta + (mc - decR delta / 2))) as (j & F & _); [lra|]; exists j; exact F].
  assert (M : mc = binR (decR delta) (mc - decR delta / 2)).
  { rewrite Hk. replace (IZR k * decR delta - decR delta / 2) with ((IZR (k - 1) + 1 / 2) * decR delta) by (rewrite minus_IZR; field).
    rewrite binR_tie by lra. f_equal. f_equal. lia. }
  rewrite M at 1. apply binR_mono; lra.
Qed.
Print Assumptions C66_binned_simulation.
(** the same with a maximum magnitude: the values do not exceed the bin of the maximum *)
Theorem C66_binned_simulation_truncated : forall u e n b mc M delta par, 0 < b -> par <> POther -> epsR <= decR delta ->
  (forall i, 0 <= u i < 1) -> (exists k : Z, mc = IZR k * decR delta) -> mc - decR delta / 2 < M -> M <> 0 ->
  exists ms, simulate_magnitudes_binned (fun i => Fin (u i)) e n (Fin b) (Fin mc) delta (Some (Fin M)) par = Ok (map Fin ms) /\ length ms = n /\
    forall m, In m ms -> mc <= m /\ m <= M + (1 / 2 + epsR) * decR delta /\ exists k : Z, m = IZR k * decR delta.
Proof.
  intros u e n b mc M delta par Hb Hp Hd Hu [k Hk] HM Hz. pose proof epsR_bounds as Eb. assert (L10 : 0 < ln 10) by (rewrite <- ln_1; apply ln_increasing; lra).
  unfold simulate_magnitudes_binned.
  assert (B : exists beta, 0 < beta /\ match par with PB => Ok (nmul (Fin b) (nln (ofZ 10))) | PBeta => Ok (Fin b) | POther => Err ValueError end = Ok (Fin beta)).
  { destruct par; [exists (b * ln 10)|exists b|congruence]; split; try nra.
    - rewrite x_ofZ, x_ln by lra. rewrite x_mul. reflexivity.
    - reflexivity. }
  destruct B as (beta & Hbeta & ->). cbn [rbind]. rewrite x_dec_val, x_two, x_div, x_sub, x_zero, x_ltb by lra.
  rewrite (proj2 (rlt_true 0 (decR delta))) by lra. rewrite sim_truncated by auto.
  rewrite <- (map_map (fun i => quantile beta (mc - decR delta / 2) M (u i)) Fin). rewrite bin_to_precision_fin by exact Hd.
  eexists. split; [reflexivity|]. rewrite !map_length, seq_length. split; [reflexivity|].
  intros m Hm. apply in_map_iff in Hm. destruct Hm as (x & <- & Hx). apply in_map_iff in Hx. destruct Hx as (i & <- & _).
  pose proof (quantile_bounds beta (mc - decR delta / 2) M (u i) Hbeta HM (Hu i)) as [Q1 Q2].
  set (q := quantile _ _ _ _) in *.
  assert (Mb : mc = binR (decR delta) (mc - decR delta / 2)).
  { rewrite Hk. replace (IZR k * decR delta - decR delta / 2) with ((IZR (k - 1) + 1 / 2) * decR delta) by (rewrite minus_IZR; field).
    rewrite binR_tie by lra. f_equal. f_equal. lia. }
  split; [rewrite Mb at 1; apply binR_mono; lra|].
  destruct (binR_near (decR delta) q) as (j & F & G1 & G2); [lra|]. split; [lra|]. exists j; exact F.
Qed.
Print Assumptions C66_binned_simulation_truncated.

Lemma Forall2_impl_ {A B} (P Q : A -> B -> Prop) l r : Forall2 P l r -> (forall x y, P x y -> Q x y) -> Forall2 Q l r.
Proof. induction 1; constructor; auto. Qed.
(** dithering: block for one bin *)
Lemma dither_block u e c b bin d : 0 < b -> 0 < d -> bin + d / 2 <> 0 -> (forall i, 0 <= u i < 1) ->
  exists l, simulate_magnitudes_binned (fun i => Fin (u i)) e c (Fin b) (nsub (Fin bin) (ndiv (Fin d) two)) (mkdec 0 0) (Some (nadd (Fin bin) (ndiv (Fin d) two))) PB = Ok (map Fin l) /\
    Forall2 (fun m x => exists i, x = quantile (b * ln 10) (m - d / 2) (m + d / 2) (u i)) (repeat bin c) l.
Proof.
  intros Hb Hd Hz Hu. assert (L10 : 0 < ln 10) by (rewrite <- ln_1; apply ln_increasing; lra).
  unfold simulate_magnitudes_binned. rewrite x_ofZ, x_ln by lra. rewrite x_mul. cbn [rbind].
  rewrite x_dec_val, x_two, !x_div by lra. rewrite x_add, !x_sub, x_zero, x_ltb. assert (D0 : decR (mkdec 0 0) = 0) by (unfold decR; simpl; ring). rewrite D0.
  rewrite (proj2 (rlt_false 0 0)) by lra.
  replace (bin - d / 2 - 0 / 2) with (bin - d / 2) by field.
  rewrite sim_truncated; [|nra|lra|exact Hz|exact Hu].
  exists (map (fun i => quantile (b * ln 10) (bin - d / 2) (bin + d / 2) (u i)) (seq 0 c)). split; [rewrite map_map; reflexivity|].
  assert (G : forall k, Forall2 (fun m x => exists i, x = quantile (b * ln 10) (m - d / 2) (m + d / 2) (u i)) (repeat bin c) (map (fun i => quantile (b * ln 10) (bin - d / 2) (bin + d / 2) (u i)) (seq k c))).
  { induction c as [|c IH]; intros k; cbn; constructor; [|apply IH]. exists k. reflexivity. }
  apply G.
Qed.
Lemma to_n_nat (c : nat) : to_n (Fin (INR c)) = c.
Proof. unfold to_n. rewrite x_floorZ. rewrite (Int_part_unique (INR c) (Z.of_nat c)); [apply Nat2Z.id|]. rewrite <- INR_IZR_INZ. lra. Qed.
Definition block (u e : nat -> xr) c b bin d :=
  simulate_magnitudes_binned u e c (Fin b) (nsub (Fin bin) (ndiv (Fin d) two)) (mkdec 0 0) (Some (nadd (Fin bin) (ndiv (Fin d) two))) PB.
Lemma dither_blocks (P : R -> R -> Prop) u e b d bc ii :
  (forall q k, In q bc -> exists l, block (u k) (e k) (snd q) b (fst q) d = Ok (map Fin l) /\ Forall2 P (repeat (fst q) (snd q)) l) ->
  exists l, dither_bins u e ii (Fin b) (Fin d) (map (fun q => (Fin (fst q), Fin (INR (snd q)))) bc) = Ok (map Fin l) /\
    Forall2 P (flat_map (fun q => repeat (fst q) (snd q)) bc) l.
Proof.
  intros H. revert ii. induction bc as [|[bin c] bc IH]; intros ii; cbn [map dither_bins fst snd flat_map].
  - exists []. split; [reflexivity|constructor].
  - rewrite to_n_nat. destruct (H (bin, c) ii (or_introl eq_refl)) as (l & E & F). cbn [fst snd] in E, F. unfold block in E. rewrite E.
    cbn [rbind]. destruct (IH (fun q k Hq => H q k (or_intror Hq)) (S ii)) as (r & -> & G). cbn [rbind].
    exists (l ++ r). rewrite map_app. split; [reflexivity|]. apply Forall2_app; assumption.
Qed.

(** a list of values on a grid is a permutation of its histogram *)
Lemma histogram_perm (ys g : list R) : NoDup g -> (forall y, In y ys -> In y g) ->
  Permutation ys (flat_map (fun b => repeat b (count (fun y => req y b) ys)) g).
Proof.
  revert ys. induction g as [|b g IH]; intros ys Hn Hin; cbn [flat_map].
  - destruct ys as [|y ys]; [constructor|]. destruct (Hin y (or_introl eq_refl)).
  - inversion Hn as [|? ? Hb Hg]; subst.
    assert (P : Permutation ys (filter (fun y => req y b) ys ++ filter (fun y => negb (req y b)) ys)).
    { clear. induction ys as [|y ys IH]; cbn; [constructor|]. destruct (req y b); cbn; [constructor; exact IH|].
      apply Permutation_cons_app. exact IH. }
    eapply Permutation_trans; [exact P|]. apply Permutation_app.
    + assert (E : filter (fun y => req y b) ys = repeat b (count (fun y => req y b) ys)); [|rewrite E at 1; apply Permutation_refl].
      unfold count. clear. induction ys as [|y ys IH]; cbn; [reflexivity|]. destruct (req y b) eqn:E; [|exact IH]. cbn.
      apply req_true in E. subst y. f_equal. exact IH.
    + specialize (IH (filter (fun y => negb (req y b)) ys) Hg).
      eapply Permutation_trans; [apply IH|].
      * intros y Hy. apply filter_In in Hy. destruct Hy as [Hy Hr]. destruct (Hin y Hy) as [<-|]; [|assumption].
        rewrite (proj2 (req_true b b)) in Hr by reflexivity. discriminate.
      * assert (E : forall g', (forall x, In x g' -> x <> b) -> flat_map (fun b0 => repeat b0 (count (fun y => req y b0) (filter (fun y => negb (req y b)) ys))) g'
                   = flat_map (fun b0 => repeat b0 (count (fun y => req y b0) ys)) g').
        { induction g' as [|x g' IHg]; intros Hx; cbn; [reflexivity|]. f_equal; [|apply IHg; intros; apply Hx; right; assumption].
          f_equal. unfold count. f_equal. assert (Nb : x <> b) by (apply Hx; left; reflexivity). clear - Nb.
          induction ys as [|y ys IH]; cbn; [reflexivity|]. destruct (req y b) eqn:E; cbn; [|destruct (req y x); [f_equal|]; exact IH].
          apply req_true in E. subst y. rewrite (proj2 (req_false b x)) by congruence. exact IH. }
        rewrite E; [apply Permutation_refl|]. intros x Hx ->. contradiction.
Qed.
Lemma grid_NoDup d lo n : 0 < d -> NoDup (grid d lo n).
Proof.
  intros Hd. unfold grid.
  assert (G : forall l, NoDup l -> NoDup (map (fun i => IZR (lo + Z.of_nat i) * d) l)).
  { induction 1 as [|i l Hi Hn IH]; cbn; constructor; auto. intros F. apply in_map_iff in F. destruct F as (j & E & Hj). apply Hi.
    apply Rmult_eq_reg_r in E; [|lra]. apply eq_IZR in E. replace i with j by lia. exact Hj. }
  apply G. apply seq_NoDup.
Qed.
Lemma grid_in d lo n y (k : Z) : y = IZR k * d -> 0 < d -> IZR lo * d <= y -> y <= IZR (lo + Z.of_nat n - 1) * d -> In y (grid d lo n).
Proof.
  intros -> Hd H1 H2. apply Rmult_le_reg_r in H1; [|exact Hd]. apply Rmult_le_reg_r in H2; [|exact Hd]. apply le_IZR in H1. apply le_IZR in H2.
  unfold grid. apply in_map_iff. exists (Z.to_nat (k - lo)). split; [f_equal; f_equal; lia|]. apply in_seq. lia.
Qed.
Lemma flat_map_shift (c : R) (f : R -> nat) g : map (fun y => y + c) (flat_map (fun b => repeat b (f b)) g) = flat_map (fun b => repeat (b + c) (f b)) g.
Proof.
  induction g as [|b g IH]; cbn; [reflexivity|]. rewrite map_app, IH. f_equal. generalize (f b). induction n as [|n IHn]; cbn; [reflexivity|]. f_equal. exact IHn.
Qed.

Definition on_grid (m0 d : R) (xs : list R) : Prop := forall x, In x xs -> exists k : Z, x = m0 + IZR k * d.
(** dithered values and original magnitudes can be matched so that each value lies in the
    bin of its magnitude (dither_magnitudes returns them ordered by bin) *)
Definition within_bins (d : R) (xs ys : list R) : Prop :=
  exists p, Permutation xs p /\ Forall2 (fun m x => m - d / 2 <= x < m + d / 2) p ys.

Lemma dither_gen (P : R -> R -> Prop) u e xs m0 delta b : xs <> [] -> epsR <= decR delta -> on_grid m0 (decR delta) xs ->
  (forall (j : Z) k c, exists l, block (u k) (e k) c b (m0 + IZR j * decR delta) (decR delta) = Ok (map Fin l) /\ Forall2 P (repeat (m0 + IZR j * decR delta) c) l) ->
  binning_test (map Fin xs) delta (Fin tol15) true = Ok true ->
  exists ys, dither_magnitudes u e (map Fin xs) delta (Fin b) = Ok (map Fin ys) /\
    exists p, Permutation xs p /\ Forall2 P p ys.
Proof.
  intros Hne Hd Hg Hz Ht. pose proof epsR_bounds as Eb. assert (Hd0 : 0 < decR delta) by lra.
  unfold dither_magnitudes. rewrite x_lit. change (IZR 1 / IZR (10 ^ Z.of_nat 15)) with tol15. rewrite Ht. cbn [rbind negb].
  destruct (C06_get_fmd_counts xs delta Hne Hd) as (ys & lo & n & counts & A & -> & Mn & Mx & -> & _). cbn [rbind].
  set (c := m0 - binR (decR delta) m0).
  assert (Ey : ys = map (fun x => x - c) xs).
  { clear - A Hg Hd0. induction A as [|x y xs ys H A IH]; cbn; [reflexivity|]. f_equal; [|apply IH; intros z Hz; apply Hg; right; exact Hz].
    destruct (Hg x (or_introl eq_refl)) as [k E]. apply (near_grid_unique (decR delta) x); [exact Hd0|exact H|].
    replace (x - c) with (binR (decR delta) x); [apply binR_near; exact Hd0|]. rewrite E, binR_shift by exact Hd0. unfold c. ring. }
  destruct xs as [|x0 xt]; [congruence|]. cbn [map] in *. destruct ys as [|y0 yt]; [discriminate|]. injection Ey as Ey0 Eyt. subst y0 yt.
  cbn [map]. rewrite !x_amin, x_sub.
  assert (Off : Rminl x0 xt - Rminl (x0 - c) (map (fun x => x - c) xt) = c).
  { assert (Rminl (x0 - c) (map (fun x => x - c) xt) = Rminl x0 xt - c); [|lra]. unfold Rminl. clear. revert x0. induction xt as [|x xt IH]; intros x0; cbn; [reflexivity|].
    rewrite <- IH. f_equal. unfold Rmin. destruct (Rle_dec (x0 - c) (x - c)); destruct (Rle_dec x0 x); lra. }
  rewrite Off. set (g := grid (decR delta) lo n) in *. set (ys := (x0 - c) :: map (fun x => x - c) xt) in *.
  assert (Gin : forall y, In y ys -> In y g).
  { intros y Hy. assert (Hk : exists k : Z, y = IZR k * decR delta).
    { assert (Hx : exists x, In x (x0 :: xt) /\ y = x - c) by (destruct Hy as [<-|Hy]; [exists x0; split; [left|]; reflexivity|apply in_map_iff in Hy; destruct Hy as (x & <- & Hx); exists x; split; [right; exact Hx|reflexivity]]).
      destruct Hx as (x & Hx & ->). destruct (Hg x Hx) as [k ->]. destruct (binR_near (decR delta) m0 Hd0) as (j & Ej & _). exists (j + k)%Z. unfold c. rewrite Ej, plus_IZR. ring. }
    destruct Hk as [k Hk]. apply (grid_in _ _ _ _ k Hk Hd0); [apply Mn|apply Mx]; exact Hy. }
  rewrite x_dec_val.
  assert (Ez : zip (map (fun x => nadd x (Fin c)) (map Fin g)) (map Fin (map (fun b0 => number_of (fun y => req y b0) ys) g))
             = map (fun q => (Fin (fst q), Fin (INR (snd q)))) (map (fun b0 => (b0 + c, count (fun y => req y b0) ys)) g)).
  { rewrite !map_map. clear. induction g as [|b0 g IH]; cbn; [reflexivity|]. f_equal. exact IH. }
  rewrite Ez.
  destruct (dither_blocks P u e b (decR delta) (map (fun b0 => (b0 + c, count (fun y => req y b0) ys)) g) 0) as (l & -> & F).
  { intros q k Hq. apply in_map_iff in Hq. destruct Hq as (b0 & <- & Hb0). cbn [fst snd]. unfold g, grid in Hb0. apply in_map_iff in Hb0. destruct Hb0 as (i & <- & _).
    destruct (binR_near (decR delta) m0 Hd0) as (j & Ej & _).
    replace (IZR (lo + Z.of_nat i) * decR delta + c) with (m0 + IZR (lo + Z.of_nat i - j) * decR delta); [apply Hz|]. unfold c. rewrite Ej, minus_IZR. ring. }
  exists l. split; [reflexivity|]. exists (map (fun y => y + c) (flat_map (fun b0 => repeat b0 (count (fun y => req y b0) ys)) g)). split.
  - assert (Ex : x0 :: xt = map (fun y => y + c) ys).
    { unfold ys. cbn [map]. rewrite map_map. f_equal; [ring|]. rewrite <- (map_id xt) at 1. apply map_ext. intros x. ring. }
    rewrite Ex. apply Permutation_map. apply histogram_perm; [apply grid_NoDup; exact Hd0|exact Gin].
  - rewrite flat_map_shift. rewrite flat_map_concat_map in F. rewrite map_map in F. cbn [fst snd] in F. rewrite flat_map_concat_map. exact F.
Qed.

Lemma dither_ok u e xs m0 delta b : xs <> [] -> 0 < b -> epsR <= decR delta -> on_grid m0 (decR delta) xs ->
  (forall k : Z, m0 + IZR k * decR delta + decR delta / 2 <> 0) -> (forall k i, 0 <= u k i < 1) ->
  binning_test (map Fin xs) delta (Fin tol15) true = Ok true ->
  exists ys, dither_magnitudes (fun k i => Fin (u k i)) e (map Fin xs) delta (Fin b) = Ok (map Fin ys) /\
    exists p, Permutation xs p /\ Forall2 (fun m x => exists k i, x = quantile (b * ln 10) (m - decR delta / 2) (m + decR delta / 2) (u k i)) p ys.
Proof.
  intros Hne Hb Hd Hg Hz Hu Ht. pose proof epsR_bounds as Eb. apply (dither_gen _ _ _ _ m0); auto. intros j k c.
  destruct (dither_block (u k) (e k) c b (m0 + IZR j * decR delta) (decR delta)) as (l & E & F); auto; [lra|].
  exists l. split; [exact E|]. apply (Forall2_impl_ _ _ _ _ F). intros m x [i ->]. exists k, i. reflexivity.
Qed.
(** with a bin edge at 0 the values still lie above the lower edges of their bins *)
Lemma dither_above u e xs m0 delta b : xs <> [] -> 0 < b -> epsR <= decR delta -> on_grid m0 (decR delta) xs ->
  (forall k i, 0 <= u k i < 1) -> (forall k i, 0 <= e k i) ->
  binning_test (map Fin xs) delta (Fin tol15) true = Ok true ->
  exists ys, dither_magnitudes (fun k i => Fin (u k i)) (fun k i => Fin (e k i)) (map Fin xs) delta (Fin b) = Ok (map Fin ys) /\
    exists p, Permutation xs p /\ Forall2 (fun m x => m - decR delta / 2 <= x) p ys.
Proof.
  intros Hne Hb Hd Hg Hu He Ht. pose proof epsR_bounds as Eb. apply (dither_gen _ _ _ _ m0); auto. intros j k c.
  assert (L10 : 0 < ln 10) by (rewrite <- ln_1; apply ln_increasing; lra).
  set (bin := m0 + IZR j * decR delta). set (d := decR delta) in *.
  destruct (Req_dec (bin + d / 2) 0) as [Z|Z].
  - unfold block, simulate_magnitudes_binned. rewrite x_ofZ, x_ln, x_mul by lra. cbn [rbind]. rewrite x_dec_val, decR0, x_two, !x_div by lra.
    rewrite x_add, !x_sub, x_zero, x_ltb, (proj2 (rlt_false 0 0)) by lra. rewrite Z.
    replace (bin - d / 2 - 0 / 2) with (bin - d / 2) by field. rewrite sim_free; [|nra|right; reflexivity].
    exists (map (fun i => e k i / (b * ln 10) + (bin - d / 2)) (seq 0 c)). split; [rewrite map_map; reflexivity|].
    assert (G : forall s, Forall2 (fun m x => m - d / 2 <= x) (repeat bin c) (map (fun i => e k i / (b * ln 10) + (bin - d / 2)) (seq s c))).
    { induction c as [|c IH]; intros s; cbn [repeat seq map]; constructor; [|apply IH].
      assert (0 <= e k s / (b * ln 10)); [|lra]. apply Rmult_le_pos; [apply He|]. apply Rlt_le, Rinv_0_lt_compat. nra. }
    apply G.
  - destruct (dither_block (u k) (fun i => Fin (e k i)) c b bin d) as (l & E & F); auto; [lra|].
    exists l. split; [exact E|]. apply (Forall2_impl_ _ _ _ _ F). intros m x [i ->].
    pose proof (quantile_bounds (b * ln 10) (m - d / 2) (m + d / 2) (u k i)) as Q. destruct Q; [nra|lra|apply Hu|]. lra.
Qed.

Theorem C66_dithering : forall u e xs m0 delta b, xs <> [] -> 0 < b -> epsR <= decR delta -> on_grid m0 (decR delta) xs ->
  (forall k : Z, m0 + IZR k * decR delta + decR delta / 2 <> 0) -> (forall k i, 0 <= u k i < 1) ->
  binning_test (map Fin xs) delta (Fin tol15) true = Ok true ->
  exists ys, dither_magnitudes (fun k i => Fin (u k i)) e (map Fin xs) delta (Fin b) = Ok (map Fin ys) /\
    length ys = length xs /\ within_bins (decR delta) xs ys.
Proof.
  intros u e xs m0 delta b H1 H2 H3 H4 H5 H6 H7. destruct (dither_ok u e xs m0 delta b H1 H2 H3 H4 H5 H6 H7) as (ys & E & p & P & F).
  assert (L10 : 0 < ln 10) by (rewrite <- ln_1; apply ln_increasing; lra). pose proof epsR_bounds.
  apply (Forall2_impl_ _ (fun m x => m - decR delta / 2 <= x < m + decR delta / 2)) in F.
  2: { intros m x (k & i & ->). apply quantile_bounds; [nra|lra|apply H6]. }
  exists ys. split; [exact E|]. split; [|exists p; split; assumption]. apply Permutation_length in P. rewrite P. symmetry. clear - F. induction F; cbn; congruence.
Qed.
Print Assumptions C66_dithering.
Lemma pass_grid xs m0 delta D : xs <> [] -> epsR <= decR delta -> on_grid m0 (decR delta) xs -> tol_small (decR delta) tol15 xs ->
  next_pow10 (decR delta) D -> ~ binned_within D tol15 xs -> binning_test (map Fin xs) delta (Fin tol15) true = Ok true.
Proof.
  intros Hne Hd Hg Ht Hp Hc. assert (T15 : tol15 <= decR delta) by (unfold tol15, epsR in *; simpl in *; lra).
  destruct (C04_binning_test_larger_characterisation (map Fin xs) delta tol15 D) as (r & E & I); rewrite ?fins_map_Fin; auto using no_inf_map_Fin.
  rewrite fins_map_Fin in I. rewrite E. f_equal. apply I. split; [|exact Hc].
  intros m [Hm1 Hm2] v Hv. destruct (Hg v Hv) as [k1 ->]. specialize (Hm2 _ Hv). destruct (Hg m Hm1) as [k2 ->]. exists (k1 - k2)%Z.
  rewrite minus_IZR. match goal with |- Rabs ?x <= _ => replace x with 0 by ring end. rewrite Rabs_R0.
  assert (0 <= tol15) by (unfold tol15; simpl; lra). assert (0 <= relR) by (unfold relR; simpl; lra). nra.
Qed.
Example C66_example : exists ys, dither_magnitudes (fun _ _ => Fin (1/2)) (fun _ _ => Fin 1) (map Fin [1; 2; 2]) (mkdec 1 0) (Fin 1) = Ok (map Fin ys) /\
   length ys = 3%nat /\ within_bins 1 [1; 2; 2] ys.
Proof.
  pose proof epsR_bounds as Eb. assert (R0 : 0 < relR < 1/1000) by (unfold relR; simpl; lra). assert (T0 : 0 < tol15 < 1/1000) by (unfold tol15; simpl; lra).
  pose proof (C66_dithering (fun _ _ => 1/2) (fun _ _ => Fin 1) [1; 2; 2] 0 (mkdec 1 0) 1) as X. rewrite decR1 in X. apply X; clear X; [discriminate|lra|lra| | |intros; lra|].
  - intros x [<-|[<-|[<-|[]]]]; [exists 1%Z|exists 2%Z|exists 2%Z]; lra.
  - intros k E. assert (E2 : IZR (2 * k + 1) = IZR 0) by (rewrite plus_IZR, mult_IZR; lra). apply eq_IZR in E2. lia.
  - apply pass_grid with 0 10; rewrite ?decR1; try discriminate; try lra.
    + intros x [<-|[<-|[<-|[]]]]; [exists 1%Z|exists 2%Z|exists 2%Z]; lra.
    + intros v w [<-|[<-|[<-|[]]]] [<-|[<-|[<-|[]]]]; nra.
    + exists 0%Z. simpl. lra.
    + intros H. assert (M : is_min 1 [1; 2; 2]) by (split; [left; reflexivity|intros v [<-|[<-|[<-|[]]]]; lra]).
      destruct (H 1 M 2 (or_intror (or_introl eq_refl))) as [k Hk].
      assert (K : (k <= 0 \/ 1 <= k)%Z) by lia. destruct K as [K|K]; [apply IZR_le in K; rewrite Rabs_right in Hk by lra; lra|].
      apply IZR_le in K. rewrite Rabs_left in Hk by lra. lra.
Qed.

(** a bin whose upper edge is exactly 0 is not respected: for the magnitudes -1/2 and 1/2 with
    delta_m = 1, every large enough exponential draw moves the first one out of all bins *)
Theorem C82_zero_edge_refuted : forall u e b, 0 < b -> (forall k i, 0 <= u k i < 1) -> (forall k i, 0 <= e k i) -> 2 * (b * ln 10) < e 0%nat 0%nat ->
  exists ys, dither_magnitudes (fun k i => Fin (u k i)) (fun k i => Fin (e k i)) (map Fin [-1/2; 1/2]) (mkdec 1 0) (Fin b) = Ok (map Fin ys) /\
    ~ within_bins 1 [-1/2; 1/2] ys.
Proof.
  intros u e b Hb Hu Hexp Hbig. pose proof epsR_bounds as Eb. assert (R0 : 0 < relR < 1/1000) by (unfold relR; simpl; lra). assert (T0 : 0 < tol15 < 1/1000) by (unfold tol15; simpl; lra).
  assert (L10 : 0 < ln 10) by (rewrite <- ln_1; apply ln_increasing; lra).
  assert (Bt : binning_test (map Fin [-1/2; 1/2]) (mkdec 1 0) (Fin tol15) true = Ok true).
  { apply pass_grid with (-1/2) 10; rewrite ?decR1; try discriminate; try lra.
    - intros x [<-|[<-|[]]]; [exists 0%Z|exists 1%Z]; lra.
    - intros v w [<-|[<-|[]]] [<-|[<-|[]]]; nra.
    - exists 0%Z. simpl. lra.
    - intros H. assert (M : is_min (-1/2) [-1/2; 1/2]) by (split; [left; reflexivity|intros v [<-|[<-|[]]]; lra]).
      destruct (H _ M (1/2) (or_intror (or_introl eq_refl))) as [k Hk].
      assert (K : (k <= 0 \/ 1 <= k)%Z) by lia. destruct K as [K|K]; [apply IZR_le in K; rewrite Rabs_right in Hk by lra; lra|].
      apply IZR_le in K. rewrite Rabs_left in Hk by lra. lra. }
  unfold dither_magnitudes. rewrite x_lit. change (IZR 1 / IZR (10 ^ Z.of_nat 15)) with tol15. rewrite Bt. cbn [rbind negb].
  assert (B1 : near_grid 1 (-1/2) 0) by (exists 0%Z; lra). assert (B2 : near_grid 1 (1/2) 1) by (exists 1%Z; lra).
  destruct (C06_get_fmd_counts [-1/2; 1/2] (mkdec 1 0)) as (ys & lo & n & counts & A & -> & Mn & Mx & -> & _); [discriminate|rewrite decR1; lra|].
  rewrite decR1 in *. inversion A as [|? y1 ? ? A1 A2]; subst. inversion A2 as [|? y2 ? ? A3 A4]; subst. inversion A4; subst.
  assert (y1 = 0) by (apply (near_grid_unique 1 (-1/2)); auto; lra). assert (y2 = 1) by (apply (near_grid_unique 1 (1/2)); auto; lra). subst y1 y2.
  assert (lo = 0)%Z.
  { destruct Mn as [M1 M2]. destruct M1 as [M1|[M1|[]]]; rewrite Rmult_1_r in M1; [apply (eq_IZR 0 lo) in M1; auto|].
    specialize (M2 0 (or_introl eq_refl)). rewrite Rmult_1_r, <- M1 in M2. lra. }
  subst lo. assert (n = 2)%nat.
  { destruct Mx as [M1 M2]. assert (Hz : (0 + Z.of_nat n - 1 = 1)%Z); [|lia]. apply eq_IZR. rewrite Rmult_1_r in *.
    destruct M1 as [M1|[M1|[]]]; [|auto]. specialize (M2 1 (or_intror (or_introl eq_refl))). rewrite <- M1 in M2. lra. }
  subst n. unfold grid, number_of, count. cbn [seq map rbind zip Z.of_nat Z.add filter].
  rewrite !Rmult_1_r. change (IZR (Z.pos (Pos.of_succ_nat 0))) with 1.
  rewrite !(proj2 (req_true 0 0)), !(proj2 (req_true 1 1)), (proj2 (req_false 1 0)), (proj2 (req_false 0 1)) by lra. cbn [length INR].
  change [Fin (1/2)] with (map Fin [1/2]). change [Fin 1] with (map Fin [1]). rewrite !x_amin, x_sub. unfold Rminl. cbn [fold_left].
  rewrite !Rmin_left by lra. rewrite x_dec_val, decR1, !x_add. cbn [dither_bins].
  replace (to_n (Fin 1)) with 1%nat by (symmetry; apply (to_n_nat 1)).
  assert (E1 : simulate_magnitudes_binned (fun i => Fin (u 0%nat i)) (fun i => Fin (e 0%nat i)) 1 (Fin b) (nsub (Fin (0 + (-1 / 2 - 0))) (ndiv (Fin 1) two)) (mkdec 0 0)
     (Some (nadd (Fin (0 + (-1 / 2 - 0))) (ndiv (Fin 1) two))) PB = Ok [Fin (e 0%nat 0%nat / (b * ln 10) + -1)]).
  { unfold simulate_magnitudes_binned. rewrite x_ofZ, x_ln, x_mul by lra. cbn [rbind]. rewrite x_dec_val, decR0, x_two, !x_div by lra.
    rewrite x_add, !x_sub, x_zero, x_ltb, (proj2 (rlt_false 0 0)) by lra.
    replace (0 + (-1 / 2 - 0) + 1 / 2) with 0 by field. replace (0 + (-1 / 2 - 0) - 1 / 2 - 0 / 2) with (-1) by field.
    rewrite sim_free; [reflexivity|nra|right; reflexivity]. }
  rewrite E1. cbn [rbind].
  destruct (dither_block (u 1%nat) (fun i => Fin (e 1%nat i)) 1 b (1 + (-1 / 2 - 0)) 1 Hb) as (l & -> & F); [lra|lra|apply Hu|].
  cbn [rbind]. inversion F as [|? x ? ? [i Fx] F2]; subst. inversion F2; subst. cbn [map app].
  eexists [_; _]. split; [reflexivity|]. intros (p & P & Q).
  assert (X : 1 < e 0%nat 0%nat / (b * ln 10) + -1).
  { assert (2 < e 0%nat 0%nat / (b * ln 10)); [|lra]. apply Rmult_lt_reg_r with (b * ln 10); [nra|]. replace (e 0%nat 0%nat / (b * ln 10) * (b * ln 10)) with (e 0%nat 0%nat) by (field; nra). lra. }
  inversion Q as [|m ? ? ? Q1]; subst. assert (I : In m [-1/2; 1/2]) by (apply (Permutation_in _ (Permutation_sym P)); left; reflexivity).
  destruct I as [<-|[<-|[]]]; lra.
Qed.
Print Assumptions C82_zero_edge_refuted.

(** In general: if some magnitude has the upper edge 0 and the exponential draws are large enough,
    its value leaves not only its own bin but all bins. *)
Theorem C82_always_refuted : forall u e xs m0 delta b x0 M, 0 < b -> epsR <= decR delta -> on_grid m0 (decR delta) xs ->
  In x0 xs -> x0 + decR delta / 2 = 0 -> (forall x, In x xs -> x <= M) -> (forall k i, 0 <= u k i < 1) ->
  (forall k i, (M + 3 / 2 * decR delta) * (b * ln 10) <= e k i) -> binning_test (map Fin xs) delta (Fin tol15) true = Ok true ->
  exists ys, dither_magnitudes (fun k i => Fin (u k i)) (fun k i => Fin (e k i)) (map Fin xs) delta (Fin b) = Ok (map Fin ys) /\
    (exists y, In y ys /\ forall x, In x xs -> x + decR delta / 2 <= y) /\ ~ within_bins (decR delta) xs ys.
Proof.
  intros u e xs m0 delta b x0 M Hb Hd Hg Hx0 Hz HM Hu Hbig Ht. pose proof epsR_bounds as Eb.
  assert (L10 : 0 < ln 10) by (rewrite <- ln_1; apply ln_increasing; lra). set (d := decR delta) in *.
  assert (Hbl : 0 < b * ln 10) by nra.
  assert (G : exists ys, dither_magnitudes (fun k i => Fin (u k i)) (fun k i => Fin (e k i)) (map Fin xs) delta (Fin b) = Ok (map Fin ys) /\
    exists p, Permutation xs p /\ Forall2 (fun m y => m + d / 2 = 0 -> M + d / 2 <= y) p ys).
  { apply (dither_gen _ _ _ _ m0); auto; [intros ->; destruct Hx0|]. intros j k c. fold d. set (bin := m0 + IZR j * d).
    destruct (Req_dec (bin + d / 2) 0) as [Z|Z].
    - unfold block, simulate_magnitudes_binned. rewrite x_ofZ, x_ln, x_mul by lra. cbn [rbind]. rewrite x_dec_val, decR0, x_two, !x_div by lra.
      rewrite x_add, !x_sub, x_zero, x_ltb, (proj2 (rlt_false 0 0)) by lra. rewrite Z.
      replace (bin - d / 2 - 0 / 2) with (bin - d / 2) by field. rewrite sim_free; [|nra|right; reflexivity].
      exists (map (fun i => e k i / (b * ln 10) + (bin - d / 2)) (seq 0 c)). split; [rewrite map_map; reflexivity|].
      assert (H : forall s, Forall2 (fun m y => m + d / 2 = 0 -> M + d / 2 <= y) (repeat bin c) (map (fun i => e k i / (b * ln 10) + (bin - d / 2)) (seq s c))).
      { induction c as [|c IH]; intros s; cbn [repeat seq map]; constructor; [|apply IH]. intros _.
        assert (M + 3 / 2 * d <= e k s / (b * ln 10)); [|lra]. apply Rmult_le_reg_r with (b * ln 10); [exact Hbl|]. replace (e k s / (b * ln 10) * (b * ln 10)) with (e k s) by (field; split; lra). apply Hbig. }
      apply H.
    - destruct (dither_block (u k) (fun i => Fin (e k i)) c b bin d) as (l & E & F); auto; [lra|].
      exists l. split; [exact E|]. assert (R : Forall (fun m => m = bin) (repeat bin c)) by (clear; induction c; constructor; auto).
      clear - F R Z. induction F as [|m y ms l H F IH]; constructor; [|apply IH; exact (Forall_inv_tail R)]. intros E. rewrite (Forall_inv R) in E. contradiction. }
  destruct G as (ys & E & p & P & F). exists ys. split; [exact E|].
  assert (Hy : exists y, In y ys /\ M + d / 2 <= y).
  { assert (I : In x0 p) by (apply (Permutation_in _ P); exact Hx0). clear - F I Hz. induction F as [|m y ms l H F IH]; [destruct I|]. destruct I as [->|I]; [exists y; split; [left; reflexivity|exact (H Hz)]|].
    destruct (IH I) as (y' & I' & H'). exists y'. split; [right; exact I'|exact H']. }
  destruct Hy as (y & Iy & Ly). split; [exists y; split; [exact Iy|intros x Hx; specialize (HM x Hx); lra]|].
  intros (q & Q & W). assert (K : exists m, In m q /\ y < m + d / 2).
  { clear - W Iy. induction W as [|m z ms l H W IH]; [destruct Iy|]. destruct Iy as [->|I]; [exists m; split; [left; reflexivity|apply H]|]. destruct (IH I) as (m' & I' & H'). exists m'. split; [right; exact I'|exact H']. }
  destruct K as (m & Im & Lm). specialize (HM m (Permutation_in _ (Permutation_sym Q) Im)). lra.
Qed.
Print Assumptions C82_always_refuted.

(** ** C28 *)
Definition used (wt : bool) (ev : list event) (mc : R) (delta : dec) : list R := map fst (complete mc (decR delta) (effective wt ev)).
Lemma after_calc srt k w wt ev mc delta o o' b : k = Classic \/ k = Utsu -> no_inf (map fst ev) ->
  calculate srt k w (argsg wt ev mc delta) o = (o', Ok b) -> o_dmc o = None ->
  b_value o' = Ok b /\ o_mc o' = Some (Fin mc) /\ o_delta o' = Some delta /\ o_dmc o' = None /\ mags_of o' = map Fin (used wt ev mc delta).
Proof.
  intros Hk Hi E Hd. assert (Hp : is_pos k = false) by (destruct Hk; subst; reflexivity).
  pose proof (final_g _ _ _ _ _ _ _ _ _ _ Hp Hi E) as (F1 & _ & F3). apply calculate_inv in E. destruct E as (u & R & Eb & F).
  destruct F as (_ & G2 & G3 & _ & _ & _ & _ & _ & _ & G10). rewrite Hp in G10. unfold b_value, mags_of. rewrite F1, F3, G2, G3, G10, Hd.
  split; [reflexivity|]. split; [destruct wt; reflexivity|]. split; [destruct wt; reflexivity|]. split; [reflexivity|]. unfold used. rewrite map_map. reflexivity.
Qed.
(** the property fails for every sample that is binned more coarsely than delta_m says (for
    instance integer magnitudes with delta_m = 0.1, or all magnitudes equal) *)
Theorem C167_coarse_sample_refuted : forall srt k w wt ev mc delta o' b table u e n D,
  k = Classic \/ k = Utsu -> no_inf (map fst ev) ->
  calculate srt k w (argsg wt ev mc delta) new_obj = (o', Ok b) ->
  used wt ev mc delta <> [] -> epsR <= decR delta -> tol_small (decR delta) tol15 (used wt ev mc delta) ->
  next_pow10 (decR delta) D -> binned_within D tol15 (used wt ev mc delta) -> (0 < n)%nat ->
  p_lilliefors table u e n o' = Err ValueError.
Proof.
  intros srt k w wt ev mc delta o' b table u e n D Hk Hi E Hne Hd Ht Hp Hb Hn. pose proof epsR_bounds.
  destruct (after_calc _ _ _ _ _ _ _ _ _ _ Hk Hi E eq_refl) as (E1 & E2 & E3 & E4 & E5).
  unfold p_lilliefors. rewrite E1, E2, E3, E4, E5. cbn [rbind]. rewrite x_dec_val, x_zero, x_ltb, (proj2 (rlt_true 0 (decR delta))) by lra.
  destruct n as [|n]; [lia|]. cbn [seq mapM].
  assert (T15 : tol15 <= decR delta) by (unfold tol15, epsR in *; simpl in *; lra).
  destruct (C04_binning_test_larger_characterisation (map Fin (used wt ev mc delta)) delta tol15 D) as (r & Er & I); rewrite ?fins_map_Fin; auto using no_inf_map_Fin.
  rewrite fins_map_Fin in I. unfold dither_magnitudes. rewrite x_lit. change (IZR 1 / IZR (10 ^ Z.of_nat 15)) with tol15. rewrite Er. cbn [rbind].
  destruct r; [exfalso; apply (proj1 I eq_refl); exact Hb|]. reflexivity.
Qed.
Print Assumptions C167_coarse_sample_refuted.

Lemma fold_min_spec (t : list R) m : (fold_left (fun a x => if nltb x a then x else a) (map Fin t) (Fin m)) = Fin (fold_left (fun a x => if rlt x a then x else a) t m).
Proof. revert m. induction t as [|x t IH]; intros m; cbn [map fold_left]; [reflexivity|]. rewrite x_ltb. destruct (rlt x m); apply IH. Qed.
Lemma fold_min_lt (t : list R) m c : fold_left (fun a x => if rlt x a then x else a) t m < c <-> exists x, In x (m :: t) /\ x < c.
Proof.
  revert m. induction t as [|x t IH]; intros m; cbn [fold_left].
  - split; [intros H; exists m; split; [left; reflexivity|exact H]|intros (x & [<-|[]] & H); exact H].
  - rewrite IH. destruct (rlt x m) eqn:E; [apply rlt_true in E|apply rlt_false in E]; split; intros (y & Hy & L).
    + exists y. split; [destruct Hy as [<-|Hy]; [right; left|right; right; exact Hy]; reflexivity|exact L].
    + destruct Hy as [<-|[<-|Hy]]; [exists x; split; [left; reflexivity|lra]|exists x; split; [left; reflexivity|lra]|exists y; split; [right; exact Hy|lra]].
    + exists y. split; [destruct Hy as [<-|Hy]; [left; reflexivity|right; right; exact Hy]|exact L].
    + destruct Hy as [<-|[<-|Hy]]; [exists m; split; [left; reflexivity|lra]|exists m; split; [left; reflexivity|lra]|exists y; split; [right; exact Hy|lra]].
Qed.
Lemma ks_lf_ok table l c : l <> [] -> (forall x, In x l -> c <= x) -> exists p, ks_test_gr_lilliefors table (map Fin l) (Fin c) = Ok p.
Proof.
  intros Hne H. destruct l as [|m t]; [congruence|]. unfold ks_test_gr_lilliefors. cbn [map]. rewrite (fold_min_spec t m), x_ltb.
  destruct (rlt _ _) eqn:E; [|eexists; reflexivity]. exfalso. apply rlt_true, fold_min_lt in E. destruct E as (x & Hx & L). specialize (H x Hx). lra.
Qed.
Lemma ks_lf_err table l c x : In x l -> x < c -> ks_test_gr_lilliefors table (map Fin l) (Fin c) = Err ValueError.
Proof.
  intros Hx L. destruct l as [|m t]; [destruct Hx|]. unfold ks_test_gr_lilliefors. cbn [map]. rewrite (fold_min_spec t m), x_ltb.
  rewrite (proj2 (rlt_true _ _)); [reflexivity|]. apply fold_min_lt. exists x. auto.
Qed.
Lemma Forall2_in_r {A B} (P : A -> B -> Prop) l r y : Forall2 P l r -> In y r -> exists x, In x l /\ P x y.
Proof. induction 1; cbn; [tauto|]. intros [<-|Hy]; [exists x; auto|]. destruct (IHForall2 Hy) as (z & ? & ?). exists z; auto. Qed.
Lemma Forall2_in_l {A B} (P : A -> B -> Prop) l r x : Forall2 P l r -> In x l -> exists y, In y r /\ P x y.
Proof. induction 1; cbn; [tauto|]. intros [<-|Hx]; [exists y; auto|]. destruct (IHForall2 Hx) as (z & ? & ?). exists z; auto. Qed.

(** it holds for samples on an exact grid that is not coarser and lies entirely at or above mc *)
Theorem C28_defined : forall srt k w wt ev mc delta o' b table u e n D m0,
  k = Classic \/ k = Utsu -> no_inf (map fst ev) ->
  calculate srt k w (argsg wt ev mc delta) new_obj = (o', Ok (Fin b)) -> 0 < b ->
  used wt ev mc delta <> [] -> epsR <= decR delta -> tol_small (decR delta) tol15 (used wt ev mc delta) ->
  next_pow10 (decR delta) D -> on_grid m0 (decR delta) (used wt ev mc delta) -> ~ binned_within D tol15 (used wt ev mc delta) ->
  (forall m, In m (used wt ev mc delta) -> mc <= m) ->
  (forall r j i, 0 <= u r j i < 1) -> (forall r j i, 0 <= e r j i) ->
  exists p, p_lilliefors table (fun r j i => Fin (u r j i)) (fun r j i => Fin (e r j i)) n o' = Ok p.
Proof.
  intros srt k w wt ev mc delta o' b table u e n D m0 Hk Hi E Hb Hne Hd Ht Hp Hg Hc Hm Hu He. pose proof epsR_bounds.
  destruct (after_calc _ _ _ _ _ _ _ _ _ _ Hk Hi E eq_refl) as (E1 & E2 & E3 & E4 & E5).
  unfold p_lilliefors. rewrite E1, E2, E3, E4, E5. cbn [rbind]. rewrite x_dec_val, x_zero, x_ltb, (proj2 (rlt_true 0 (decR delta))) by lra.
  rewrite x_two, x_div, x_sub by lra.
  match goal with |- exists p, rbind (mapM ?f _) _ = _ => assert (G : forall l, exists ps, mapM f l = Ok ps) end.
  { induction l as [|r l [ps IH]]; cbn [mapM]; [eexists; reflexivity|]. rewrite IH.
    destruct (dither_above (u r) (e r) (used wt ev mc delta) m0 delta b Hne Hb Hd Hg (Hu r) (He r)) as (ys & -> & p & P & F); [apply pass_grid with m0 D; assumption|].
    cbn [rbind]. destruct (ks_lf_ok table ys (mc - decR delta / 2)) as [pv ->].
    - intros ->. inversion F; subst. apply Permutation_sym, Permutation_nil in P. contradiction.
    - intros x Hx. destruct (Forall2_in_r _ _ _ _ F Hx) as (m & Hm' & L).
      apply (Permutation_in _ (Permutation_sym P)) in Hm'. apply Hm in Hm'. lra.
    - cbn [rbind]. eexists; reflexivity. }
  destruct (G (seq 0 n)) as [ps ->]. cbn [rbind]. eexists; reflexivity.
Qed.
Print Assumptions C28_defined.
(** and it fails for some random numbers as soon as a used magnitude lies below mc (it is
    used because it is at or above mc - delta_m/2, but its bin starts below that) *)
Theorem C168_below_mc_refuted : forall srt k w wt ev mc delta o' b table e n D m0,
  k = Classic \/ k = Utsu -> no_inf (map fst ev) ->
  calculate srt k w (argsg wt ev mc delta) new_obj = (o', Ok (Fin b)) -> 0 < b ->
  used wt ev mc delta <> [] -> epsR <= decR delta -> tol_small (decR delta) tol15 (used wt ev mc delta) ->
  next_pow10 (decR delta) D -> on_grid m0 (decR delta) (used wt ev mc delta) -> ~ binned_within D tol15 (used wt ev mc delta) ->
  (exists m, In m (used wt ev mc delta) /\ m < mc) -> (forall j : Z, m0 + IZR j * decR delta + decR delta / 2 <> 0) ->
  (0 < n)%nat ->
  p_lilliefors table (fun r j i => Fin 0) e n o' = Err ValueError.
Proof.
  intros srt k w wt ev mc delta o' b table e n D m0 Hk Hi E Hb Hne Hd Ht Hp Hg Hc (m & Hm & Lm) Hz Hn. pose proof epsR_bounds.
  assert (L10 : 0 < ln 10) by (rewrite <- ln_1; apply ln_increasing; lra).
  destruct (after_calc _ _ _ _ _ _ _ _ _ _ Hk Hi E eq_refl) as (E1 & E2 & E3 & E4 & E5).
  unfold p_lilliefors. rewrite E1, E2, E3, E4, E5. cbn [rbind]. rewrite x_dec_val, x_zero, x_ltb, (proj2 (rlt_true 0 (decR delta))) by lra.
  rewrite x_two, x_div, x_sub by lra. destruct n as [|n]; [lia|]. cbn [seq mapM].
  destruct (dither_ok (fun _ _ => 0) (e 0%nat) (used wt ev mc delta) m0 delta b Hne Hb Hd Hg Hz) as (ys & -> & p & P & F); [intros; lra|apply pass_grid with m0 D; assumption|].
  cbn [rbind]. apply (Permutation_in _ P) in Hm. destruct (Forall2_in_l _ _ _ _ F Hm) as (x & Hx & j & i & Ex).
  rewrite (ks_lf_err table ys (mc - decR delta / 2) x Hx); [reflexivity|]. rewrite Ex. unfold quantile.
  match goal with |- context [ln ?a] => replace a with (exp (- (b * ln 10) * (m - decR delta / 2))) by ring end. rewrite ln_exp.
  match goal with |- ?a < _ => replace a with (m - decR delta / 2) by (field; split; lra) end. lra.
Qed.
Print Assumptions C168_below_mc_refuted.
(** the run of C09_example meets the hypotheses of the positive result *)
Example C28_example : forall table u e n, (forall r j i, 0 <= u r j i < 1) -> (forall r j i, 0 <= e r j i) ->
  exists o' b p, calculate ex_srt Classic true (argsg true ex_ev 1 (mkdec 1 0)) new_obj = (o', Ok (Fin b)) /\
    p_lilliefors table (fun r j i => Fin (u r j i)) (fun r j i => Fin (e r j i)) n o' = Ok p.
Proof.
  intros table u e n Hu He. pose proof epsR_bounds as Eb. assert (R0 : 0 < relR < 1/1000) by (unfold relR; simpl; lra). assert (T0 : 0 < tol15 < 1/1000) by (unfold tol15; simpl; lra).
  destruct C09_example as [o' E]. rewrite est_val_classic in E by lra.
  assert (L10 : 0 < ln 10) by (rewrite <- ln_1; apply ln_increasing; lra).
  assert (Lb : 0 < ln (1 + 1 / (3 / 4))) by (rewrite <- ln_1; apply ln_increasing; lra).
  exists o', (ln (1 + 1 / (3 / 4)) / 1 / ln 10).
  assert (U : used true ex_ev 1 (mkdec 1 0) = [1; 2]) by (unfold used, effective; rewrite decR1, ex_complete; reflexivity).
  destruct (C28_defined ex_srt Classic true true ex_ev 1 (mkdec 1 0) o' _ table u e n 10 0 (or_introl eq_refl) ex_no_inf E) as [p Hp]; rewrite ?U, ?decR1; auto.
  - apply Rdiv_lt_0_compat; lra.
  - discriminate.
  - lra.
  - intros v v' [<-|[<-|[]]] [<-|[<-|[]]]; nra.
  - exists 0%Z. simpl. lra.
  - intros x [<-|[<-|[]]]; [exists 1%Z|exists 2%Z]; lra.
  - intros H. assert (M : is_min 1 [1; 2]) by (split; [left; reflexivity|intros v [<-|[<-|[]]]; lra]).
    destruct (H 1 M 2 (or_intror (or_introl eq_refl))) as [k Hk].
    assert (K : (k <= 0 \/ 1 <= k)%Z) by lia. destruct K as [K|K]; [apply IZR_le in K; rewrite Rabs_right in Hk by lra; lra|].
    apply IZR_le in K. rewrite Rabs_left in Hk by lra. lra.
  - intros m [<-|[<-|[]]]; lra.
  - exists p. auto.
Qed.
(** two equal magnitudes: the estimate is fine, the Lilliefors test raises *)
Example C167_example : forall table u e, exists o' b,
  calculate ex_srt Classic true (argsg false [(Fin 2, 1); (Fin 2, 1)] 1 (mkdec 1 0)) new_obj = (o', Ok b) /\ p_lilliefors table u e 3 o' = Err ValueError.
Proof.
  intros table u e. pose proof epsR_bounds as Eb. assert (R0 : 0 < relR < 1/1000) by (unfold relR; simpl; lra). assert (T0 : 0 < tol15 < 1/1000) by (unfold tol15; simpl; lra).
  set (ev := [(Fin 2, 1); (Fin 2, 1)]).
  assert (NI : no_inf (map fst ev)) by (intros v [<-|[<-|[]]]; split; discriminate).
  assert (Ck : check (argsg false ev 1 (mkdec 1 0)) = Ok tt).
  { apply (check_grid [2; 2] 1 (mkdec 1 0) 0); rewrite decR1; [lra|]. intros m [<-|[<-|[]]]; exists 2%Z; lra. }
  pose proof (calc_g ex_srt Classic true false ev 1 (mkdec 1 0) new_obj eq_refl NI) as H. rewrite Ck, decR1 in H. cbn [rbind] in H.
  assert (Cm : complete 1 1 (effective false ev) = [(2, 1); (2, 1)]).
  { unfold complete, ev, effective, unit_events. cbn [flat_map fst snd map]. rewrite (proj2 (rle_true (1 - 1 / 2) 2)) by lra. reflexivity. }
  rewrite Cm in H. destruct (calculate ex_srt Classic true (argsg false ev 1 (mkdec 1 0)) new_obj) as [o' r] eqn:E. cbn [snd] in H.
  assert (Cr : core Classic 1 (mkdec 1 0) [(2, 1); (2, 1)] = Ok (est_val Classic 1 1)).
  { unfold core, est_core, excess, wsum; cbn [map fst snd Rsum fold_right].
    rewrite (proj2 (req_false _ _)) by lra. rewrite decR1. do 2 f_equal. field. }
  rewrite Cr in H. subst r. exists o'. eexists. split; [reflexivity|].
  assert (U : used false ev 1 (mkdec 1 0) = [2; 2]) by (unfold used; rewrite decR1, Cm; reflexivity).
  apply (C167_coarse_sample_refuted ex_srt Classic true false ev 1 (mkdec 1 0) o' _ table u e 3 10 (or_introl eq_refl) NI E); rewrite ?U, ?decR1.
  - discriminate.
  - lra.
  - intros v v' [<-|[<-|[]]] [<-|[<-|[]]]; nra.
  - exists 0%Z. simpl. lra.
  - intros m [[<-|[<-|[]]] _] v [<-|[<-|[]]]; exists 0%Z; rewrite Rminus_diag_eq by ring; rewrite Rabs_R0; nra.
  - lia.
Qed.
