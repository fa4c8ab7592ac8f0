(** * C226-C229: the significance plot: default numbers of magnitudes, lists, markers and band *)
From Coq Require Import Reals Lra Lia ZArith List Bool Sorted Permutation.
From Flocq Require Import Core.
From Verif Require Import Base Num XR RList SortLib StateM Binning_model Spec_Binning Binning_proofs BinTest_proofs BValue_model BValue_run BValue_proofs BSig_model Spec_BSig Props_BSig
  Openquake_model F64 Spec_F64 F64_proofs F64_fmd F64_est Plots_model Spec_Plots Props_Plots Props_BPlots.
Import ListNotations.
Open Scope R_scope.

(** ** np.unique *)
Lemma unique_adj_in l y : In y (unique_adj l) <-> In y l.
Proof.
  induction l as [|x k IH]; [tauto|]. destruct k as [|z k]; [tauto|]. cbn [unique_adj].
  destruct (Nat.eqb_spec x z) as [->|E].
  - rewrite IH. split; [intros H; right; exact H|intros [<-|H]; [left; reflexivity|exact H]].
  - split; (intros [H|H]; [left; exact H|right; apply IH; exact H]).
Qed.
Lemma unique_adj_sorted l : StronglySorted le l -> StronglySorted lt (unique_adj l).
Proof.
  induction l as [|x k IH]; intros H; [constructor|]. inversion H as [|? ? Hs Hf]; subst. specialize (IH Hs). destruct k as [|z k]; [constructor; constructor|].
  cbn [unique_adj]. destruct (Nat.eqb_spec x z) as [->|E]; [exact IH|].
  constructor; [exact IH|]. rewrite Forall_forall in *. intros y Hy.
  apply (proj1 (unique_adj_in (z :: k) y)) in Hy. inversion Hs as [|? ? Hs' Hf']; subst. rewrite Forall_forall in Hf'.
  pose proof (Hf z (or_introl eq_refl)) as Z1. destruct Hy as [<-|Hy]; [lia|]. pose proof (Hf' y Hy) as Z2. lia.
Qed.
Lemma unique_adj_length l : (length (unique_adj l) <= length l)%nat.
Proof. induction l as [|x k IH]; [cbn; lia|]. destruct k as [|z k]; [cbn; lia|]. 
  change (unique_adj (x :: z :: k)) with (if (x =? z)%nat then unique_adj (z :: k) else x :: unique_adj (z :: k)).
  destruct (x =? z)%nat; cbn [length] in *; lia.
Qed.
Lemma unique_nat_spec l : StronglySorted lt (unique_nat l) /\ (forall y, In y (unique_nat l) <-> In y l) /\ (length (unique_nat l) <= length l)%nat.
Proof.
  unfold unique_nat. split; [|split].
  - apply unique_adj_sorted. assert (H : StronglySorted (leP Nat.leb) (isort Nat.leb l)).
    { apply isort_sorted.
      - intros a b. rewrite !Nat.leb_le. lia.
      - intros a b c E1 E2. apply Nat.leb_le in E1, E2. apply Nat.leb_le. lia. }
    clear -H. induction H as [|a l' H IH F]; constructor; [exact IH|]. rewrite Forall_forall in *. intros y Hy. apply F in Hy. unfold leP in Hy. apply Nat.leb_le, Hy.
  - intros y. rewrite unique_adj_in. split; intros H; [apply (Permutation_in _ (Permutation_sym (isort_perm Nat.leb l)))|apply (Permutation_in _ (isort_perm Nat.leb l))]; exact H.
  - pose proof (unique_adj_length (isort Nat.leb l)). rewrite <- (Permutation_length (isort_perm Nat.leb l)) in H. exact H.
Qed.

(** ** the ten numbers before they become integers *)
Definition inside (s v : R) : Prop := 15 <= v <= s \/ s <= v <= 15.
Lemma floor_nat x k : INR k <= x < INR k + 1 -> Z.to_nat (Int_part x) = k.
Proof. intros H. rewrite INR_IZR_INZ in H. rewrite (Int_part_unique x (Z.of_nat k)) by exact H. apply Nat2Z.id. Qed.
Lemma div15 n : (15 * INR (n / 15) <= INR n < 15 * INR (n / 15) + 15 /\ INR n <= 15 * INR (n / 15) + 14).
Proof.
  pose proof (Nat.div_mod n 15 ltac:(lia)) as D. pose proof (Nat.mod_upper_bound n 15 ltac:(lia)) as B.
  set (q := (n / 15)%nat) in *. set (r := (n mod 15)%nat) in *. assert (E : INR n = 15 * INR q + INR r) by (rewrite D at 1; rewrite plus_INR, mult_INR; f_equal; f_equal; cbn; lra).
  assert (INR r <= 14) by (replace 14 with (INR 14) by (cbn; lra); apply le_INR; lia). pose proof (pos_INR r). lra.
Qed.

Definition good_numbers (n : nat) (l : list nat) : Prop :=
  StronglySorted lt l /\ (length l <= 10)%nat /\ In 15%nat l /\ In (n / 15)%nat l /\
  forall k, In k l -> (15 <= k <= n / 15 \/ n / 15 <= k <= 15)%nat.

(** the values v 0 = 15, v 1, ..., v 8 lie between 15 and s, whose integer part is n / 15 *)
Lemma numbers_good {N : Num xr} n (v : nat -> R) (s : R) : (forall x, @nfloorZ xr N (Fin x) = Some (Int_part x)) ->
  v 0%nat = 15 -> 0 <= s -> Z.to_nat (Int_part s) = (n / 15)%nat -> (forall k, (k < 9)%nat -> inside s (v k)) ->
  good_numbers n (unique_nat (map (@truncate xr N) (map (fun k => Fin (v k)) (seq 0 9) ++ [Fin s]))).
Proof.
  intros Hf V0 S0 Hs Hv. destruct (unique_nat_spec (map (@truncate xr N) (map (fun k => Fin (v k)) (seq 0 9) ++ [Fin s]))) as (U1 & U2 & U3).
  assert (Tr : forall x, truncate (Fin x) = Z.to_nat (Int_part x)) by (intros x; unfold truncate; rewrite Hf; reflexivity).
  assert (F15 : Z.to_nat (Int_part 15) = 15%nat) by (apply floor_nat; cbn; lra).
  assert (Mono : forall x y, x <= y -> (Z.to_nat (Int_part x) <= Z.to_nat (Int_part y))%nat).
  { intros x y H. destruct (Int_part_spec x), (Int_part_spec y). assert (IZR (Int_part x) < IZR (Int_part y + 1)) by (rewrite plus_IZR; lra). assert (Int_part x < Int_part y + 1)%Z by (apply lt_IZR; assumption). lia. }
  split; [exact U1|]. split; [rewrite map_length, app_length, map_length, seq_length in U3; exact U3|].
  split; [|split].
  - apply U2, in_map_iff. exists (Fin (v 0%nat)). split; [rewrite Tr, V0; exact F15|]. apply in_or_app; left. apply in_map_iff. exists 0%nat. split; [reflexivity|]. apply in_seq. lia.
  - apply U2, in_map_iff. exists (Fin s). split; [rewrite Tr; exact Hs|]. apply in_or_app; right; left; reflexivity.
  - intros k Hk. apply U2, in_map_iff in Hk. destruct Hk as (x & <- & Hx). apply in_app_or in Hx. destruct Hx as [Hx|[<-|[]]].
    + apply in_map_iff in Hx. destruct Hx as (i & <- & Hi). apply in_seq in Hi. rewrite Tr, <- Hs, <- F15. destruct (Hv i ltac:(lia)) as [[A B]|[A B]]; [left|right]; split; apply Mono; assumption.
    + rewrite Tr, Hs. lia.
Qed.

(** *** exact arithmetic *)
Lemma linspace_exact s : exists v, linspace (ofZ 15) (Fin s) 10 = map (fun k => Fin (v k)) (seq 0 9) ++ [Fin s] /\ v 0%nat = 15 /\ forall k, (k < 9)%nat -> inside s (v k).
Proof.
  exists (fun k => 15 + INR k * ((s - 15) / 9)). split; [|split; [cbn; lra|]].
  - unfold linspace. change (10 - 1)%nat with 9%nat. f_equal. apply map_ext_in. intros k Hk.
    unfold ofnat. rewrite !x_ofZ, !x_sub. rewrite x_div by (cbn; lra). change (IZR (Z.of_nat 9)) with 9. rewrite <- INR_IZR_INZ.
    rewrite x_zero, x_eqb. destruct (req _ 0) eqn:E.
    + apply req_true in E. rewrite x_div by lra. rewrite x_mul, x_add. f_equal. assert (s - 15 = 0) by lra. rewrite H. lra.
    + rewrite x_mul, x_add. f_equal. ring.
  - intros k Hk. assert (K : 0 <= INR k <= 8) by (split; [apply pos_INR|replace 8 with (INR 8) by (cbn; lra); apply le_INR; lia]). unfold inside.
    destruct (Rle_dec 15 s); [left|right]; split; nra.
Qed.
Lemma default_exact n min_num :
  ((n <= 15 * min_num)%nat -> @default_n_ms xr XR n min_num = Err ValueError) /\
  ((15 * min_num < n)%nat -> exists l, @default_n_ms xr XR n min_num = Ok l /\ good_numbers n l).
Proof.
  unfold default_n_ms, ofnat. rewrite !x_ofZ, x_div by lra. rewrite x_ltb, <- !INR_IZR_INZ. split; intros H.
  - replace (rlt _ _) with false; [reflexivity|]. symmetry. apply rlt_false. apply le_INR in H. rewrite mult_INR in H. replace (INR 15) with 15 in H by (cbn; lra). lra.
  - replace (rlt _ _) with true. 2:{ symmetry. apply rlt_true. apply lt_INR in H. rewrite mult_INR in H. replace (INR 15) with 15 in H by (cbn; lra). lra. }
    eexists. split; [reflexivity|]. destruct (linspace_exact (INR n / 15)) as (v & E & V0 & Hv). rewrite x_ofZ in E. rewrite E.
    pose proof (div15 n). pose proof (pos_INR n).
    apply (numbers_good n v (INR n / 15)); [reflexivity|exact V0|lra| |exact Hv]. apply floor_nat. lra.
Qed.

(** *** double precision *)
Lemma rnd_er x : Rabs (rnd x - x) <= Rabs x * / 1000000000000000 + / 1000000000.
Proof. pose proof (rnd_err x) as E. pose proof (Rabs_pos x). unfold u, h in E. lra. Qed.
Lemma rnd_up x : 0 <= x -> rnd x <= x * (1 + / 1000000000000000) + / 1000000000 /\ x * (1 - / 1000000000000000) - / 1000000000 <= rnd x.
Proof. intros H. pose proof (rnd_er x) as E. rewrite (Rabs_pos_eq x H) in E. apply Rabs_le_inv in E. lra. Qed.
Section Double.
  Context (L : libm).
  Lemma h_ofZ z : (Z.abs z <= 2 ^ 53)%Z -> @ofZ xr (F64 L) z = Fin (IZR z). Proof. apply f_ofZ. Qed.
  Lemma h_sub a b : Rabs (a - b) <= big -> @nsub xr (F64 L) (Fin a) (Fin b) = Fin (rnd (a - b)). Proof. apply f_sub. Qed.
  Lemma linspace_double s : 0 <= s <= 1000000000000000 -> rnd s = s -> (s = 15 \/ 15 + 1 / 20 <= s \/ s <= 15 - 1 / 20) ->
    exists v, @linspace xr (F64 L) (@ofZ xr (F64 L) 15) (Fin s) 10 = map (fun k => Fin (v k)) (seq 0 9) ++ [Fin s] /\ v 0%nat = 15 /\ forall k, (k < 9)%nat -> inside s (v k).
  Proof.
    intros HS Rs Gap. assert (R15 : rnd 15 = 15) by (exact (rnd_int 15 ltac:(lia))).
    set (d := rnd (s - 15)). set (st := rnd (d / 9)).
    assert (Hd : Rabs (d - (s - 15)) <= Rabs (s - 15) * / 1000000000000000 + / 1000000000) by apply rnd_er.
    assert (Bd : Rabs (s - 15) <= 1000000000000000) by (apply Rabs_le; lra).
    exists (fun k => if req st 0 then rnd (rnd (rnd (INR k / 9) * d) + 15) else rnd (rnd (INR k * st) + 15)).
    assert (Hst : Rabs d <= 2000000000000000) by (pose proof (Rabs_triang (d - (s - 15)) (s - 15)) as T1; replace (d - (s - 15) + (s - 15)) with d in T1 by ring; lra).
    assert (Hst2 : Rabs (d / 9) <= 1000000000000000) by (unfold Rdiv; rewrite Rabs_mult, (Rabs_pos_eq (/ 9)); lra).
    assert (Hst3 : Rabs st <= 2000000000000000) by (unfold st; pose proof (rnd_er (d / 9)) as E; pose proof (Rabs_triang (rnd (d / 9) - d / 9) (d / 9)) as E2; replace (rnd (d / 9) - d / 9 + d / 9) with (rnd (d / 9)) in E2 by ring; lra).
    assert (Zst : st = 0 -> s = 15).
    { intros Z. destruct Gap as [G|G]; [exact G|exfalso]. unfold st in Z. pose proof (rnd_er (d / 9)) as E. rewrite Z in E.
      replace (Rabs (0 - d / 9)) with (Rabs (d / 9)) in E by (rewrite <- Rabs_Ropp; f_equal; ring).
      assert (Q : Rabs (d / 9) <= / 100000) by lra. unfold Rdiv in Q. rewrite Rabs_mult, (Rabs_pos_eq (/ 9)) in Q by lra.
      assert (Q2 : 1 / 20 <= Rabs (s - 15)) by (destruct G; [rewrite Rabs_pos_eq|rewrite Rabs_left]; lra).
      assert (Q3 : Rabs (s - 15) - Rabs d <= Rabs (d - (s - 15))) by (rewrite (Rabs_minus_sym d); apply Rabs_triang_inv). lra. }
    assert (Kb : forall k, (k < 9)%nat -> 0 <= INR k <= 8) by (intros k Hk; split; [apply pos_INR|replace 8 with (INR 8) by (cbn; lra); apply le_INR; lia]).
    split; [|split].
    - unfold linspace. change (10 - 1)%nat with 9%nat. f_equal. apply map_ext_in. intros k Hk. apply in_seq in Hk. specialize (Kb k ltac:(lia)).
      unfold zero, ofnat. rewrite !h_ofZ by (cbn; lia). change (IZR (Z.of_nat 9)) with 9. rewrite <- INR_IZR_INZ.
      rewrite h_sub by (unfold big; lra). fold d. rewrite g_div by (lra || (unfold big; lra)). fold st.
      change (@neqb xr (F64 L) (Fin st) (Fin 0)) with (req st 0). destruct (req st 0) eqn:E.
      + apply req_true in E. specialize (Zst E).
        assert (D0 : d = 0) by (unfold d; replace (s - 15) with 0 by lra; apply rnd_0).
        rewrite g_div by (lra || (unfold big; apply Rabs_le; lra)). rewrite g_mul by (rewrite D0, Rmult_0_r, Rabs_R0; unfold big; lra).
        rewrite g_add; [reflexivity|]. rewrite D0, Rmult_0_r, rnd_0. unfold big; apply Rabs_le; lra.
      + assert (A : Rabs (INR k * st) <= 16000000000000000) by (rewrite Rabs_mult, (Rabs_pos_eq (INR k)) by lra; pose proof (Rabs_pos st); nra).
        rewrite g_mul by (unfold big; lra). rewrite g_add; [reflexivity|].
        pose proof (rnd_er (INR k * st)) as E2. pose proof (Rabs_triang (rnd (INR k * st) - INR k * st) (INR k * st)) as T2. replace (rnd (INR k * st) - INR k * st + INR k * st) with (rnd (INR k * st)) in T2 by ring.
        pose proof (Rabs_triang (rnd (INR k * st)) 15) as T3. rewrite (Rabs_pos_eq 15) in T3 by lra. unfold big. lra.
    - cbn [INR]. destruct (req st 0).
      + replace (0 / 9) with 0 by lra. rewrite rnd_0, Rmult_0_l, rnd_0, Rplus_0_l. exact R15.
      + rewrite Rmult_0_l, rnd_0, Rplus_0_l. exact R15.
    - intros k Hk. specialize (Kb k Hk). destruct (req st 0) eqn:E.
      + apply req_true in E. specialize (Zst E). assert (D0 : d = 0) by (unfold d; replace (s - 15) with 0 by lra; apply rnd_0).
        rewrite D0, Rmult_0_r, rnd_0, Rplus_0_l, R15. left. lra.
      + destruct Gap as [G|[G|G]].
        * exfalso. apply req_false in E. apply E. unfold st, d. replace (s - 15) with 0 by lra. rewrite rnd_0. replace (0 / 9) with 0 by lra. apply rnd_0.
        * left. apply Rabs_le_inv in Hd. rewrite (Rabs_pos_eq (s - 15)) in Hd by lra. assert (D0 : 0 <= d) by lra.
          assert (S0 : 0 <= st) by (unfold st; rewrite <- rnd_0; apply rnd_mono; lra).
          assert (S1 : st <= d / 9 * (1 + / 1000000000000000) + / 1000000000) by (apply rnd_up; lra).
          assert (P0 : 0 <= INR k * st <= 8 * st) by nra.
          destruct (rnd_up (INR k * st) (proj1 P0)) as [P1 _]. assert (P2 : 0 <= rnd (INR k * st)) by (rewrite <- rnd_0; apply rnd_mono; lra).
          split; [rewrite <- R15 at 1; apply rnd_mono; lra|]. rewrite <- Rs at 1. apply rnd_mono. lra.
        * right. apply Rabs_le_inv in Hd. rewrite (Rabs_left1 (s - 15)) in Hd by lra. assert (D0 : d <= 0) by lra.
          assert (S0 : 0 <= - st) by (unfold st; rewrite <- rnd_opp, <- rnd_0; apply rnd_mono; lra).
          assert (S1 : - st <= - d / 9 * (1 + / 1000000000000000) + / 1000000000) by (unfold st; rewrite <- rnd_opp; replace (- (d / 9)) with (- d / 9) by lra; apply rnd_up; lra).
          assert (P0 : 0 <= INR k * - st <= 8 * - st) by nra.
          destruct (rnd_up (INR k * - st) (proj1 P0)) as [P1 _]. assert (P2 : 0 <= rnd (INR k * - st)) by (rewrite <- rnd_0; apply rnd_mono; lra).
          assert (P3 : rnd (INR k * - st) = - rnd (INR k * st)) by (rewrite <- rnd_opp; f_equal; ring). rewrite P3 in *.
          split; [rewrite <- Rs at 1; apply rnd_mono; nra|]. rewrite <- R15. apply rnd_mono. lra.
  Qed.
  Lemma default_double n min_num : (Z.of_nat n <= 2 ^ 40)%Z -> (Z.of_nat min_num <= 2 ^ 40)%Z ->
    ((n <= 15 * min_num)%nat -> @default_n_ms xr (F64 L) n min_num = Err ValueError) /\
    ((15 * min_num < n)%nat -> exists l, @default_n_ms xr (F64 L) n min_num = Ok l /\ good_numbers n l).
  Proof.
    intros Bn Bm. pose proof u_val as HU. assert (Hh : 0 < h < / 1000000000) by (unfold h; lra).
    assert (Bn' : 0 <= INR n <= 1099511627776) by (split; [apply pos_INR|rewrite INR_IZR_INZ; apply IZR_le; exact Bn]).
    unfold default_n_ms, ofnat. rewrite !h_ofZ by lia. rewrite <- !INR_IZR_INZ. rewrite g_div by (lra || (unfold big; apply Rabs_le; lra)).
    set (s := rnd (INR n / 15)). change (@nltb xr (F64 L) (Fin (INR min_num)) (Fin s)) with (rlt (INR min_num) s).
    destruct (rnd_up (INR n / 15) ltac:(lra)) as [E1 E2]. fold s in E1, E2.
    assert (RI : forall k : nat, (Z.of_nat k <= 2 ^ 40)%Z -> rnd (INR k) = INR k) by (intros k Hk; rewrite INR_IZR_INZ; apply rnd_int; lia).
    split; intros H.
    - replace (rlt _ _) with false; [reflexivity|]. symmetry. apply rlt_false. rewrite <- (RI min_num Bm). apply rnd_mono.
      apply le_INR in H. rewrite mult_INR in H. replace (INR 15) with 15 in H by (cbn; lra). lra.
    - replace (rlt _ _) with true.
      2:{ symmetry. apply rlt_true. assert (H' : (15 * min_num + 1 <= n)%nat) by lia. apply le_INR in H'. rewrite plus_INR, mult_INR in H'. replace (INR 15) with 15 in H' by (cbn; lra). replace (INR 1) with 1 in H' by (cbn; lra). lra. }
      eexists. split; [reflexivity|].
      assert (Gap : s = 15 \/ 15 + 1 / 20 <= s \/ s <= 15 - 1 / 20).
      { destruct (Nat.lt_total n 225) as [C|[C|C]].
        - right; right. apply le_INR in C. rewrite S_INR in C. replace (INR 225) with 225 in C by (rewrite INR_IZR_INZ; reflexivity). lra.
        - left. unfold s. rewrite C. replace (INR 225 / 15) with 15 by (rewrite INR_IZR_INZ; cbn; lra). exact (rnd_int 15 ltac:(lia)).
        - right; left. apply le_INR in C. rewrite S_INR in C. replace (INR 225) with 225 in C by (rewrite INR_IZR_INZ; reflexivity). lra. }
      assert (Rs : rnd s = s) by (apply rnd_id, rnd_format).
      assert (S0 : 0 <= s) by (unfold s; rewrite <- rnd_0; apply rnd_mono; lra).
      destruct (linspace_double s ltac:(split; [exact S0|nra]) Rs Gap) as (v & E & V0 & Hv). rewrite h_ofZ in E by lia. rewrite E.
      destruct (div15 n) as [[D1 D2] D3].
      apply (@numbers_good (F64 L) n v s); [reflexivity|exact V0|exact S0| |exact Hv]. apply floor_nat. split.
      + rewrite <- (RI (n / 15)%nat); [apply rnd_mono; lra|]. assert (n / 15 <= n)%nat by (apply Nat.div_le_upper_bound; lia). lia.
      + lra.
  Qed.
End Double.

(** ** C226: the numbers of magnitudes used by default

    [complete_count] is the number of events of at least their completeness magnitude minus half
    a bin, in the arithmetic [N].  [good_numbers n l]: at most ten increasing numbers between 15
    and n / 15 (rounded down), both included. *)
Definition complete_count (N : Num xr) (delta : dec) (ev : list event1) : nat :=
  length (filter (fun e => nleb (nsub (ev_c e) (ndiv (dec_val delta) two)) (ev_m e)) ev).
Definition event_plot (N : Num xr) srt cdf ppf m wn kw draws (ev : list event1) delta n_ms min_num cons thr :=
  @significance_plot xr N srt cdf ppf m wn kw draws (map ev_m ev) (Array (map ev_c ev)) delta (map ev_t ev) n_ms min_num None cons thr.

Lemma count_compress {N : Num xr} delta (ev : list event1) :
  length (compress (map2 (fun m c => nleb (nsub c (ndiv (dec_val delta) two)) m) (map ev_m ev) (map ev_c ev)) (map ev_m ev)) = complete_count N delta ev.
Proof.
  unfold complete_count. induction ev as [|e ev IH]; [reflexivity|]. cbn [map map2 compress filter].
  destruct (nleb _ (ev_m e)); cbn [length]; rewrite IH; reflexivity.
Qed.
Lemma default_plot {N : Num xr} srt cdf ppf m wn kw draws ev delta min_num cons thr :
  event_plot N srt cdf ppf m wn kw draws ev delta SDefault min_num cons thr
  = match default_n_ms (complete_count N delta ev) min_num with
    | Ok l => event_plot N srt cdf ppf m wn kw draws ev delta (SArray l) min_num cons thr
    | Err e => Err e
    end.
Proof.
  unfold event_plot, significance_plot. cbn [rbind]. rewrite !map_length, !Nat.eqb_refl. cbn [negb]. rewrite count_compress.
  destruct (default_n_ms _ _); reflexivity.
Qed.

Theorem C226_default_numbers : forall srt cdf ppf m wn kw draws ev delta min_num cons thr,
  let n := complete_count XR delta ev in
  ((n <= 15 * min_num)%nat -> event_plot XR srt cdf ppf m wn kw draws ev delta SDefault min_num cons thr = Err ValueError) /\
  ((15 * min_num < n)%nat -> exists l, good_numbers n l /\
     event_plot XR srt cdf ppf m wn kw draws ev delta SDefault min_num cons thr = event_plot XR srt cdf ppf m wn kw draws ev delta (SArray l) min_num cons thr).
Proof.
  intros. rewrite default_plot. destruct (default_exact n min_num) as [D1 D2]. fold n. split; intros H; [rewrite (D1 H); reflexivity|].
  destruct (D2 H) as (l & E & G). exists l. rewrite E. split; [exact G|reflexivity].
Qed.
Print Assumptions C226_default_numbers.
(** the same in double precision *)
Theorem C226_default_numbers_double : forall (L : libm) srt cdf ppf m wn kw draws ev delta min_num cons thr,
  let n := complete_count (F64 L) delta ev in
  (Z.of_nat n <= 2 ^ 40)%Z -> (Z.of_nat min_num <= 2 ^ 40)%Z ->
  ((n <= 15 * min_num)%nat -> event_plot (F64 L) srt cdf ppf m wn kw draws ev delta SDefault min_num cons thr = Err ValueError) /\
  ((15 * min_num < n)%nat -> exists l, good_numbers n l /\
     event_plot (F64 L) srt cdf ppf m wn kw draws ev delta SDefault min_num cons thr = event_plot (F64 L) srt cdf ppf m wn kw draws ev delta (SArray l) min_num cons thr).
Proof.
  intros L srt cdf ppf m wn kw draws ev delta min_num cons thr n B1 B2. rewrite default_plot. destruct (default_double L n min_num B1 B2) as [D1 D2]. fold n. split; intros H; [rewrite (D1 H); reflexivity|].
  destruct (D2 H) as (l & E & G). exists l. rewrite E. split; [exact G|reflexivity].
Qed.
Print Assumptions C226_default_numbers_double.
(** with 225 complete events or more and min_num <= 15 there are always 15 samples of each size,
    and no size is below min_num *)
Theorem C226_reasonable : forall n min_num l, (225 <= n)%nat -> (min_num <= 15)%nat -> good_numbers n l ->
  forall k, In k l -> (0 < k)%nat /\ (min_num <= k)%nat /\ (15 * k <= n)%nat.
Proof.
  intros n min_num l Hn Hm (_ & _ & _ & _ & G) k Hk. pose proof (Nat.div_mod n 15 ltac:(lia)) as D. pose proof (Nat.mod_upper_bound n 15 ltac:(lia)) as B.
  specialize (G k Hk). lia.
Qed.
Print Assumptions C226_reasonable.
(** so every point is the result of b_significant_1D *)
Theorem C226_every_point_estimated : forall srt cdf ppf m wn kw draws ev delta min_num cons thr,
  let n := complete_count XR delta ev in
  (225 <= n)%nat -> (min_num <= 15)%nat -> (15 * min_num < n)%nat ->
  exists l, good_numbers n l /\
    event_plot XR srt cdf ppf m wn kw draws ev delta SDefault min_num cons thr = event_plot XR srt cdf ppf m wn kw draws ev delta (SArray l) min_num cons thr /\
    plot_b_significant_1D srt cdf m wn kw draws (map ev_m ev) (Array (map ev_c ev)) delta (map ev_t ev) l min_num None cons
    = mapM (fun k => b_significant_1D srt cdf m wn kw (draws k) (map ev_m ev) (Array (map ev_c ev)) delta (map ev_t ev) k min_num None cons) l.
Proof.
  intros srt cdf ppf m wn kw draws ev delta min_num cons thr n Hn Hm Q.
  destruct (C226_default_numbers srt cdf ppf m wn kw draws ev delta min_num cons thr) as [_ D]. fold n in D.
  destruct (D Q) as (l & G & E). exists l. split; [exact G|]. split; [exact E|].
    pose proof (C226_reasonable n min_num l Hn Hm G) as R.
    rewrite C130_points by (intros k Hk; destruct (R k Hk) as (R1 & R2 & _); split; assumption).
    apply mapM_ext_in. intros k Hk. destruct (R k Hk) as (_ & _ & R3).
    replace (length (complete1 delta ev)) with n.
    + rewrite (proj2 (Nat.ltb_ge _ _) R3). reflexivity.
    + unfold n, complete_count, complete1. f_equal. apply filter_ext. intros e. rewrite half_fin. reflexivity.
Qed.
Print Assumptions C226_every_point_estimated.

Example C226_example : complete_count XR (mkdec 1 (-1)) (repeat (Fin 2, Fin 0, Fin 1) 226) = 226%nat /\ (225 <= 226)%nat /\ (2 <= 15)%nat /\ (15 * 2 < 226)%nat /\
  exists l, @default_n_ms xr XR 226 2 = Ok l /\ In 15%nat l.
Proof.
  split; [|split; [|split; [|split]]]; try lia.
  - unfold complete_count. assert (E : forall k (e : event1), nleb (nsub (ev_c e) (ndiv (dec_val (mkdec 1 (-1))) two)) (ev_m e) = true ->
      filter (fun e => nleb (nsub (ev_c e) (ndiv (dec_val (mkdec 1 (-1))) two)) (ev_m e)) (repeat e k) = repeat e k).
    { intros k e He. induction k as [|k IH]; [reflexivity|]. cbn [repeat filter]. rewrite He, IH. reflexivity. }
    rewrite E; [apply repeat_length|]. rewrite half_fin. unfold ev_c, ev_m. cbn [fst snd]. rewrite x_sub, x_leb. apply rle_true. unfold decR. cbn. lra.
  - destruct (default_exact 226 2) as [_ D]. destruct (D ltac:(lia)) as (l & E & _ & _ & G & _). exists l. split; assumption.
Qed.

(** ** C227: the default fails for smaller catalogues and larger min_num *)
(** the events suffice, but min_num is above 15: ValueError, because 15 is among the sizes *)
Theorem C227_large_min_num_refuted : forall srt cdf ppf m wn kw draws ev delta min_num cons thr,
  (15 < min_num)%nat -> (15 * min_num < complete_count XR delta ev)%nat ->
  event_plot XR srt cdf ppf m wn kw draws ev delta SDefault min_num cons thr = Err ValueError.
Proof.
  intros srt cdf ppf m wn kw draws ev delta min_num cons thr Hm Hn.
  destruct (C226_default_numbers srt cdf ppf m wn kw draws ev delta min_num cons thr) as [_ D]. destruct (D Hn) as (l & G & ->). clear D.
  set (n := complete_count XR delta ev) in *. pose proof (Nat.div_mod n 15 ltac:(lia)) as D. pose proof (Nat.mod_upper_bound n 15 ltac:(lia)) as B.
  destruct G as (S1 & _ & I15 & _ & G).
  destruct l as [|k l]; [destruct I15|]. assert (k = 15)%nat as ->.
  { destruct I15 as [I15|I15]; [exact I15|]. inversion S1 as [|? ? _ F]; subst. rewrite Forall_forall in F. specialize (F _ I15). specialize (G k (or_introl eq_refl)). lia. }
  unfold event_plot, significance_plot. cbn [rbind]. rewrite !map_length, !Nat.eqb_refl. cbn [negb rbind].
  assert (E : plot_b_significant_1D srt cdf m wn kw draws (map ev_m ev) (Array (map ev_c ev)) delta (map ev_t ev) (15%nat :: l) min_num None cons = Err ValueError); [|rewrite E; reflexivity].
  unfold plot_b_significant_1D. cbn [rbind]. rewrite !map_length, Nat.eqb_refl. cbn [negb]. rewrite half_fin. rewrite map2_maps at 1. rewrite !map_length, Nat.eqb_refl. cbn [negb].
  rewrite !compress_map2. fold (complete1 delta ev). cbn [mapM Nat.eqb]. rewrite map_length, enough_samples by lia.
  replace (length (complete1 delta ev)) with n by (unfold n, complete_count, complete1; f_equal; apply filter_ext; intros e; rewrite half_fin; reflexivity).
  rewrite (proj2 (Nat.ltb_ge n (15 * 15))) by lia.
  unfold b_significant_1D, prepare_1D. rewrite !map_length, Nat.eqb_refl. cbn [negb]. rewrite (proj2 (Nat.ltb_lt _ _) Hm). reflexivity.
Qed.
Print Assumptions C227_large_min_num_refuted.
(** fewer than 225 events: 15 is among the sizes, and nothing can be estimated for it *)
Theorem C227_few_events_refuted : forall srt cdf ppf m wn kw draws ev delta min_num cons thr pts band red,
  (15 * min_num < complete_count XR delta ev)%nat -> (complete_count XR delta ev < 225)%nat ->
  event_plot XR srt cdf ppf m wn kw draws ev delta SDefault min_num cons thr = Ok (pts, band, red) -> In (15%nat, NaN) pts.
Proof.
  intros srt cdf ppf m wn kw draws ev delta min_num cons thr pts band red Hn Hs.
  destruct (C226_default_numbers srt cdf ppf m wn kw draws ev delta min_num cons thr) as [_ D]. destruct (D Hn) as (l & G & ->). clear D.
  set (n := complete_count XR delta ev) in *. destruct G as (_ & _ & I15 & _ & _).
  unfold event_plot, significance_plot. cbn [rbind]. rewrite !map_length, !Nat.eqb_refl. cbn [negb rbind].
  destruct (plot_b_significant_1D srt cdf m wn kw draws (map ev_m ev) (Array (map ev_c ev)) delta (map ev_t ev) l min_num None cons) as [res|] eqn:E; [|discriminate].
  cbn [rbind]. assert (R : In (15%nat, (NaN, NaN, NaN, NaN)) (zip l res)).
  { unfold plot_b_significant_1D in E. cbn [rbind] in E. rewrite !map_length, Nat.eqb_refl in E. cbn [negb] in E. rewrite half_fin in E. rewrite map2_maps in E at 1. rewrite !map_length, Nat.eqb_refl in E. cbn [negb] in E.
    rewrite !compress_map2 in E. fold (complete1 delta ev) in E. apply mapM_ok in E.
    clear -E I15 Hs. induction E as [|k r l res Ek E IH]; [destruct I15|]. destruct I15 as [->|I15]; [left|right; apply IH, I15]. f_equal.
    cbn [Nat.eqb] in Ek. rewrite map_length, enough_samples in Ek by lia.
    replace (length (complete1 delta ev)) with (complete_count XR delta ev) in Ek by (unfold complete_count, complete1; f_equal; apply filter_ext; intros e; rewrite half_fin; reflexivity).
    rewrite (proj2 (Nat.ltb_lt _ (15 * 15))) in Ek by lia. injection Ek as <-. reflexivity. }
  assert (P : In (15%nat, NaN) (map (fun r : nat * (xr * xr * xr * xr) => let '(n_m, (_, mac, _, _)) := r in (n_m, mac)) (zip l res))).
  { apply in_map_iff. exists (15%nat, (NaN, NaN, NaN, NaN)). split; [reflexivity|exact R]. }
  destruct (existsb _ _); intros Q; injection Q as <- _ _; exact P.
Qed.
Print Assumptions C227_few_events_refuted.

(** ** C228: a list for n_ms raises as soon as a point is significant *)
Theorem C228_list_refuted : forall T (N : Num T) srt cdf ppf m wn kw draws mags mc delta times l min_num x cons thr pts band red,
  significance_plot srt cdf ppf m wn kw draws mags mc delta times (SArray l) min_num x cons thr = Ok (pts, band, red) -> red <> [] ->
  significance_plot srt cdf ppf m wn kw draws mags mc delta times (SList l) min_num x cons thr = Err TypeError.
Proof.
  intros T N srt cdf ppf m wn kw draws mags mc delta times l min_num x cons thr pts band red. unfold significance_plot.
  set (srtd := match x with None => Ok (mags, times) | Some xs => _ end). destruct srtd as [[m' t']|]; [|discriminate]. cbn [rbind].
  destruct (negb _); [discriminate|]. destruct (negb _); [discriminate|]. cbn [rbind].
  destruct (plot_b_significant_1D _ _ _ _ _ _ _ _ _ _ _ _ _ _) as [res|]; [|discriminate]. cbn [rbind].
  destruct (existsb _ _); [reflexivity|]. intros E. injection E as _ _ <-. intros H; exfalso; apply H; reflexivity.
Qed.
Print Assumptions C228_list_refuted.
(** otherwise a list and an array give the same picture *)
Theorem C228_same_without_marker : forall T (N : Num T) srt cdf ppf m wn kw draws mags mc delta times l min_num x cons thr pts band,
  significance_plot srt cdf ppf m wn kw draws mags mc delta times (SArray l) min_num x cons thr = Ok (pts, band, []) ->
  significance_plot srt cdf ppf m wn kw draws mags mc delta times (SList l) min_num x cons thr = Ok (pts, band, []).
Proof.
  intros T N srt cdf ppf m wn kw draws mags mc delta times l min_num x cons thr pts band. unfold significance_plot.
  set (srtd := match x with None => Ok (mags, times) | Some xs => _ end). destruct srtd as [[m' t']|]; [|discriminate]. cbn [rbind].
  destruct (negb _); [discriminate|]. destruct (negb _); [discriminate|]. cbn [rbind].
  destruct (plot_b_significant_1D _ _ _ _ _ _ _ _ _ _ _ _ _ _) as [res|]; [|discriminate]. cbn [rbind].
  destruct (existsb _ _) eqn:X; [|intros E; exact E]. intros E. exfalso. injection E as _ _ E. apply existsb_exists in X. destruct X as (r & Hr & Hb).
  assert (In r (filter (fun r : nat * (T * T * T * T) => let '(_, (p, _, _, _)) := r in nltb p thr) (zip l res))) as F by (apply filter_In; split; assumption).
  destruct (filter _ (zip l res)); [destruct F|discriminate].
Qed.
Print Assumptions C228_same_without_marker.

(** ** C229: red markers and band

    [Phi] is the standard normal distribution function and [z] its inverse; [cdf mean std x] is
    scipy's norm(mean, std).cdf(x), [ppf] its norm.ppf. *)
Definition normal (cdf : xr -> xr -> xr -> xr) (ppf : xr -> xr) (Phi z : R -> R) : Prop :=
  (forall x y, x < y -> Phi x < Phi y) /\ (forall q, 0 < q < 1 -> Phi (z q) = q) /\
  (forall mu s x, 0 < s -> cdf (Fin mu) (Fin s) (Fin x) = Fin (Phi ((x - mu) / s))) /\
  (forall q, 0 < q < 1 -> ppf (Fin q) = Fin (z q)).

Lemma summary_std cdf cons acs p mac mu s : summary cdf cons acs = (p, Fin mac, Fin mu, Fin s) -> 0 < s /\ p = nsub one (cdf (Fin mu) (Fin s) (Fin mac)).
Proof.
  unfold summary. set (np := nanmean (map (fun x => snd x) acs)). destruct (nltb two np) eqn:E; cbn [fst snd]; [|destruct cons; discriminate].
  intros H. assert (Q : p = nsub one (cdf (Fin mu) (Fin s) (Fin mac)) /\ (if cons then ndiv (nsub np two) (nmul np (nsqrt np)) else nmul (ndiv (nsub np two) (nmul np (nsqrt np))) (lit 81 2)) = Fin s) by (split; congruence).
  destruct Q as [Qp Qs]. split; [|exact Qp].
  destruct np as [r| | |]; try discriminate E.
  - rewrite x_two, x_ltb in E. apply rlt_true in E. rewrite x_sqrt in Qs by lra. rewrite x_mul, x_two, x_sub in Qs.
    assert (S0 : 0 < sqrt r) by (apply sqrt_lt_R0; lra). rewrite x_div in Qs by nra.
    assert (P : 0 < (r - 2) / (r * sqrt r)) by (apply Rdiv_lt_0_compat; nra).
    rewrite x_lit, x_mul in Qs. change (IZR (10 ^ Z.of_nat 2)) with 100 in Qs. destruct cons; injection Qs as <-; [exact P|]. lra.
  - destruct cons; discriminate Qs.
Qed.

Theorem C229_markers : forall srt cdf ppf Phi z m wn kw draws mags mc delta times l min_num x cons thr pts band red i n mac n' lo mu hi,
  normal cdf ppf Phi z -> 0 < thr < 1 ->
  significance_plot srt cdf ppf m wn kw draws mags mc delta times (SArray l) min_num x cons (Fin thr) = Ok (pts, band, red) ->
  nth_error pts i = Some (n, Fin mac) -> nth_error band i = Some (n', Fin lo, Fin mu, Fin hi) ->
  n' = n /\ exists s, 0 < s /\ lo = mu - z (1 - thr / 2) * s /\ hi = mu + z (1 - thr / 2) * s /\
    (In (n, Fin mac) red <-> mu + z (1 - thr) * s < mac).
Proof.
  intros srt cdf ppf Phi z m wn kw draws mags mc delta times l min_num x cons thr pts band red i n mac n' lo mu hi (Hm & Hz & Hc & Hp) Ht. unfold significance_plot.
  set (srtd := match x with None => Ok (mags, times) | Some xs => _ end). destruct srtd as [[m' t']|] eqn:Es; [|discriminate]. cbn [rbind].
  destruct (negb _) eqn:L1; [discriminate|]. destruct (negb (length m' =? length t')%nat) eqn:L2; [discriminate|]. cbn [rbind].
  destruct (plot_b_significant_1D _ _ _ _ _ _ _ _ _ _ _ _ _ _) as [res|] eqn:E; [|discriminate]. cbn [rbind].
  unfold two, one. rewrite !x_ofZ. rewrite x_div by lra. rewrite x_sub. rewrite Hp by lra.
  assert (FA : exists f, Forall2 (fun k r => f k = Ok r /\ (r = (NaN, NaN, NaN, NaN) \/ exists acs, r = summary cdf cons acs)) l res).
  { unfold plot_b_significant_1D in E. fold srtd in E. rewrite Es in E. cbn [rbind] in E. rewrite L1 in E.
    cbv zeta in E. match type of E with (if ?b then _ else _) = _ => destruct b; [discriminate|] end. match type of E with mapM ?f l = _ => exists f end. apply mapM_ok in E. clear -E.
    induction E as [|k r l res Ek E IH]; constructor; [|exact IH]. split; [exact Ek|].
    destruct (k =? 0)%nat; [discriminate|]. destruct (nltb _ _); [left; injection Ek as <-; reflexivity|].
    unfold b_significant_1D in Ek. destruct (prepare_1D _ _ _ _ _ _ _ _) as [[[a b] c]|]; [|discriminate]. cbn [rbind] in Ek.
    destruct (k =? 0)%nat; [discriminate|]. destruct (nltb _ _); [left; injection Ek as <-; reflexivity|]. right.
    destruct (mapM _ _) as [acs|]; [|discriminate]. exists acs. cbn [rbind] in Ek. congruence. }
  destruct FA as [f FA].
  set (rows := zip l res). set (below := fun r : nat * (xr * xr * xr * xr) => let '(_, (p, _, _, _)) := r in nltb p (Fin thr)).
  set (pt := fun r : nat * (xr * xr * xr * xr) => let '(n_m, (_, mac, _, _)) := r in (n_m, mac)).
  set (bd := fun r : nat * (xr * xr * xr * xr) => let '(n_m, (_, _, mu, std)) := r in (n_m, nsub mu (nmul (Fin (z (1 - thr / 2))) std), mu, nadd mu (nmul (Fin (z (1 - thr / 2))) std))).
  intros Q. assert (Q' : pts = map pt rows /\ band = map bd rows /\ red = map pt (filter below rows)).
  { destruct (existsb below rows) eqn:X; injection Q as <- <- <-; (split; [reflexivity|split; [reflexivity|]]); [reflexivity|].
    replace (filter below rows) with (@nil (nat * (xr * xr * xr * xr))); [reflexivity|]. symmetry. clear -X. induction rows as [|r rows IH]; [reflexivity|].
    cbn [existsb filter] in *. apply orb_false_iff in X. destruct X as [-> X]. apply IH, X. }
  destruct Q' as (-> & -> & ->). clear Q. intros N1 N2.
  rewrite nth_error_map in N1, N2. destruct (nth_error rows i) as [[k [[[p ma] mm] sd]]|] eqn:Er; [|discriminate].
  cbn [option_map pt bd] in N1, N2.
  assert (E1 : k = n /\ ma = Fin mac) by (split; congruence). destruct E1 as [-> ->].
  assert (E2 : n = n' /\ mm = Fin mu /\ nsub mm (nmul (Fin (z (1 - thr / 2))) sd) = Fin lo /\ nadd mm (nmul (Fin (z (1 - thr / 2))) sd) = Fin hi) by (repeat split; congruence).
  destruct E2 as (<- & -> & E3 & E4). clear N1 N2.
  assert (FR : forall r, In r rows -> f (fst r) = Ok (snd r) /\ (snd r = (NaN, NaN, NaN, NaN) \/ exists acs, snd r = summary cdf cons acs)).
  { unfold rows. clear -FA. induction FA as [|k r l res H F IH]; intros q; [intros []|]. cbn [zip]. intros [<-|Hq]; [exact H|apply IH, Hq]. }
  assert (Ir : In (n, (p, Fin mac, Fin mu, sd)) rows) by (eapply nth_error_In; exact Er).
  destruct (FR _ Ir) as [Fn Fs]. cbn [fst snd] in Fn, Fs.
  split; [reflexivity|].
  assert (SD : exists s, sd = Fin s).
  { clear -E3. destruct sd as [s| | |]; [exists s; reflexivity|exfalso..]; cbn in E3; try discriminate E3.
    all: repeat match type of E3 with context [Rlt_dec ?a ?b] => destruct (Rlt_dec a b) | context [Req_EM_T ?a ?b] => destruct (Req_EM_T a b) end; cbn in E3; discriminate E3. }
  destruct SD as [s ->].
  exists s. destruct Fs as [Fs|[acs Fs]]; [discriminate|]. symmetry in Fs. apply summary_std in Fs. destruct Fs as [Sp ->].
  rewrite x_mul, x_sub in E3. rewrite x_mul, x_add in E4. injection E3 as <-. injection E4 as <-.
  split; [exact Sp|]. split; [reflexivity|]. split; [reflexivity|].
  rewrite Hc in * by exact Sp. rewrite x_one, x_sub in *.
  assert (B : below (n, (Fin (1 - Phi ((mac - mu) / s)), Fin mac, Fin mu, Fin s)) = true <-> mu + z (1 - thr) * s < mac).
  { cbn [below]. rewrite x_ltb, rlt_true. split; intros H.
    - assert (H' : Phi (z (1 - thr)) < Phi ((mac - mu) / s)) by (rewrite Hz by lra; lra).
      destruct (Rlt_le_dec (z (1 - thr)) ((mac - mu) / s)) as [C|C].
      + apply (Rmult_lt_compat_r s) in C; [|exact Sp]. replace ((mac - mu) / s * s) with (mac - mu) in C by (field; lra). lra.
      + destruct C as [C|C]; [apply Hm in C; lra|rewrite C in H'; lra].
    - assert (C : z (1 - thr) < (mac - mu) / s) by (apply (Rmult_lt_reg_r s); [exact Sp|]; replace ((mac - mu) / s * s) with (mac - mu) by (field; lra); lra).
      apply Hm in C. rewrite Hz in C by lra. lra. }
  rewrite <- B. rewrite in_map_iff. split.
  - intros ([k' [[[p' ma'] mu'] s']] & Eq & Hin). apply filter_In in Hin. destruct Hin as [Hin Hb]. cbn [pt] in Eq. assert (k' = n) as -> by congruence.
    destruct (FR _ Hin) as [Fn' _]. cbn [fst snd] in Fn'. rewrite Fn in Fn'. injection Fn' as <- <- <- <-. exact Hb.
  - intros Hb. exists (n, (Fin (1 - Phi ((mac - mu) / s)), Fin mac, Fin mu, Fin s)). split; [reflexivity|]. apply filter_In. split; [exact Ir|exact Hb].
Qed.
Print Assumptions C229_markers.

(** a point above the band is marked; one below it is not (for thresholds up to one half) *)
Theorem C229_outside_the_band : forall srt cdf ppf Phi z m wn kw draws mags mc delta times l min_num x cons thr pts band red i n mac n' lo mu hi,
  normal cdf ppf Phi z -> 0 < thr < 1 ->
  significance_plot srt cdf ppf m wn kw draws mags mc delta times (SArray l) min_num x cons (Fin thr) = Ok (pts, band, red) ->
  nth_error pts i = Some (n, Fin mac) -> nth_error band i = Some (n', Fin lo, Fin mu, Fin hi) ->
  (hi < mac -> In (n, Fin mac) red) /\ (Phi 0 = 1 / 2 -> thr <= 1 / 2 -> mac < lo -> ~ In (n, Fin mac) red).
Proof.
  intros srt cdf ppf Phi z m wn kw draws mags mc delta times l min_num x cons thr pts band red i n mac n' lo mu hi HN Ht HP H1 H2.
  destruct (C229_markers srt cdf ppf Phi z m wn kw draws mags mc delta times l min_num x cons thr pts band red i n mac n' lo mu hi HN Ht HP H1 H2)
    as (_ & s & Sp & -> & -> & Hr). destruct HN as (Hm & Hz & _ & _).
  assert (Zi : forall a b, 0 < a < 1 -> 0 < b < 1 -> a < b -> z a < z b).
  { intros a b A B AB. destruct (Rlt_le_dec (z a) (z b)) as [C|[C|C]]; [exact C| |].
    - apply Hm in C. rewrite !Hz in C by assumption. lra.
    - pose proof (Hz a A) as Ea. pose proof (Hz b B) as Eb. rewrite C in Eb. lra. }
  split.
  - intros Ha. apply Hr. assert (z (1 - thr) < z (1 - thr / 2)) by (apply Zi; lra). nra.
  - intros P0 Th Hb Hin. apply Hr in Hin.
    assert (Z1 : 0 <= z (1 - thr)).
    { destruct (Rle_lt_dec 0 (z (1 - thr))) as [C|C]; [exact C|]. apply Hm in C. rewrite P0, Hz in C by lra. lra. }
    assert (Z2 : z (1 - thr) < z (1 - thr / 2)) by (apply Zi; lra). nra.
Qed.
Print Assumptions C229_outside_the_band.
(** the point and the middle of the band are those of b_significant_1D *)
Theorem C229_points : forall T (N : Num T) srt cdf ppf m wn kw draws mags mc delta times l min_num x cons thr pts band red,
  significance_plot srt cdf ppf m wn kw draws mags mc delta times (SArray l) min_num x cons thr = Ok (pts, band, red) ->
  exists results, plot_b_significant_1D srt cdf m wn kw draws mags mc delta times l min_num x cons = Ok results /\ length results = length l /\
    Forall2 (fun r q => snd q = snd (fst (fst r))) results pts /\
    Forall2 (fun r q => snd (fst q) = snd (fst r)) results band /\
    map fst pts = l /\ map (fun q => fst (fst (fst q))) band = l /\ (forall q, In q red -> In q pts).
Proof.
  intros T N srt cdf ppf m wn kw draws mags mc delta times l min_num x cons thr pts band red. unfold significance_plot.
  set (srtd := match x with None => Ok (mags, times) | Some xs => _ end). destruct srtd as [[m' t']|]; [|discriminate]. cbn [rbind].
  destruct (negb _); [discriminate|]. destruct (negb _); [discriminate|]. cbn [rbind].
  destruct (plot_b_significant_1D _ _ _ _ _ _ _ _ _ _ _ _ _ _) as [res|] eqn:E; [|discriminate]. cbn [rbind].
  assert (Lr : length res = length l).
  { unfold plot_b_significant_1D in E. destruct (match x with None => _ | Some _ => _ end) as [[a b]|]; [|discriminate]. cbn [rbind] in E. destruct (negb _); [discriminate|].
    cbv zeta in E. match type of E with (if ?b then _ else _) = _ => destruct b; [discriminate|] end. apply mapM_ok in E. clear -E. induction E; cbn [length]; congruence. }
  clear E. intros Q. exists res. split; [reflexivity|]. split; [exact Lr|].
  match type of Q with (if _ then Ok (?a, ?b, ?c) else _) = _ => assert (Q' : pts = a /\ band = b /\ (red = c \/ red = [])) end.
  { destruct (existsb _ _); injection Q as <- <- <-; auto. }
  destruct Q' as (-> & -> & Hred). clear Q.
  assert (Hz : map fst (zip l res) = l /\ Forall2 (fun r q => snd q = r) res (zip l res)).
  { clear -Lr. revert res Lr. induction l as [|k l IH]; intros [|r res] L; try discriminate; cbn; [split; [reflexivity|constructor]|].
    injection L as L. destruct (IH res L) as [I1 I2]. rewrite I1. split; [reflexivity|constructor; [reflexivity|exact I2]]. }
  destruct Hz as [Z1 Z2]. repeat split.
  - clear -Z2. induction Z2 as [|r [k [[[p a] mu] s]] res zs E Z IH]; cbn [map]; constructor; [|exact IH]. cbn [snd] in E. rewrite <- E. reflexivity.
  - clear -Z2. induction Z2 as [|r [k [[[p a] mu] s]] res zs E Z IH]; cbn [map]; constructor; [|exact IH]. cbn [snd] in E. rewrite <- E. reflexivity.
  - rewrite map_map. rewrite <- Z1 at 2. apply map_ext. intros [k [[[p a] mu] s]]. reflexivity.
  - rewrite map_map. rewrite <- Z1 at 2. apply map_ext. intros [k [[[p a] mu] s]]. reflexivity.
  - intros q Hq. destruct Hred as [-> | ->]; [|destruct Hq]. apply in_map_iff in Hq. destruct Hq as (r & <- & Hr). apply filter_In in Hr. apply in_map_iff. exists r. split; [reflexivity|apply Hr].
Qed.
Print Assumptions C229_points.

(** a distribution of this kind, for the statement about markers *)
Example C229_example : let Phi := fun x => / (1 + exp (- x)) in let z := fun q => ln (q / (1 - q)) in
  normal (fun mu s x => match mu, s, x with Fin mu, Fin s, Fin x => Fin (Phi ((x - mu) / s)) | _, _, _ => NaN end) (fun q => match q with Fin q => Fin (z q) | _ => NaN end) Phi z /\ Phi 0 = 1 / 2.
Proof.
  cbv zeta. split; [split; [|split; [|split]]|].
  - intros x y H. pose proof (exp_pos (- x)). pose proof (exp_pos (- y)). apply Rinv_lt_contravar; [nra|]. apply Rplus_lt_compat_l, exp_increasing. lra.
  - intros q Hq. rewrite <- ln_Rinv by (apply Rdiv_lt_0_compat; lra). rewrite exp_ln by (apply Rinv_0_lt_compat, Rdiv_lt_0_compat; lra). field. lra.
  - reflexivity.
  - reflexivity.
  - rewrite Ropp_0, exp_0. lra.
Qed.
