(** * C180, C181: the completeness magnitude by maximum curvature, in double precision *)
From Coq Require Import ZArith List Bool Reals Lia Lra Psatz Permutation Sorted.
From Flocq Require Import Core.
From Verif Require Import Base Num XR RList SortLib Binning_model BValue_model BValue_run Spec_BValue BValue_proofs Props_BValue Props_BValue2
  Spec_Positive Positive_proofs Props_Positive Mc_model Props_Mc Openquake_model F64 Spec_F64 F64_proofs F64_test F64_select F64_fmd Props_F64 Props_F64b.
Import ListNotations.
Open Scope R_scope.

(** [mc] lies within 0.4 bins of the magnitude with index [kc] *)
Definition about (j : Z) (d : nat) (kc : Z) (mc : R) : Prop := Rabs (mc - IZR kc * widthR j d) <= 4 / 10 * widthR j d.
Lemma select_about L j d kc mc K : usual_width j d -> moderate j d kc -> about j d kc mc -> moderate j d K ->
  @nleb xr (F64 L) (@nsub xr (F64 L) (Fin mc) (@ndiv xr (F64 L) (@dec_val xr (F64 L) (width j d)) (@two xr (F64 L)))) (Fin (decimal j d K)) = (kc <=? K)%Z.
Proof.
  intros W C A M. destruct (half_width L j d W) as (q0 & E0 & H0). unfold FI6 in E0. rewrite E0. pose proof (W_bounds j d W) as B.
  pose proof (dec_near j d K M) as N. unfold about in A. unfold moderate in C, M. apply Rabs_le_inv in A, C, M, N, H0.
  rewrite f_sub by (unfold big; apply Rabs_le; lra).
  pose proof (rnd_err_le (mc - q0) 120 ltac:(apply Rabs_le; lra)) as E2. apply Rabs_le_inv in E2. unfold u, h in E2.
  cbn [nleb F64 xleb]. destruct (Z.leb_spec kc K) as [X|X].
  - apply rle_true. apply IZR_le in X. nra.
  - apply rle_false. assert (X' : (K + 1 <= kc)%Z) by lia. apply IZR_le in X'. rewrite plus_IZR in X'. nra.
Qed.

(** ** the events used for any [mc] near a grid value (C174 has [mc] exactly on it) *)
Theorem C180_complete_events : forall (L : libm) srt k w j d ks kc mc o, usual_width j d -> k = Classic \/ k = Utsu ->
  (forall i, In i ks -> below8 j d i) -> moderate j d kc -> about j d kc mc ->
  exists o' b idx used, @calculate xr (F64 L) srt k w (mkargs (mags_at j d ks) (Fin mc) (width j d) None None None) o = (o', Ok b) /\
    o_idx o' = Some idx /\ o_mags o' = Some (mags_at j d used) /\ picks (fun i => (kc <= i)%Z) ks idx used.
Proof.
  intros L srt k w j d ks kc mc o W Hk B C Ab. set (a := mkargs (mags_at j d ks) (Fin mc) (width j d) None None None).
  assert (OK : exists u, @run xr (F64 L) srt k a = Ok u).
  { rewrite run_dmc by (intros [X|X]; destruct Hk; congruence). rewrite check_binned by (apply (mags_at_ok L j d ks); auto). cbn [a_weights a rbind].
    assert (Hp : is_pos k = false) by (destruct Hk as [->| ->]; reflexivity). unfold f_times. rewrite Hp. cbn [rbind].
    destruct (@f_mags xr (F64 L) a) as [|m ms] eqn:Em; [eexists; reflexivity|].
    destruct Hk as [->| ->]; cbn [run_est]; unfold mle_estimator, utsu_estimator, f_weights; cbn [a_weights a option_map np_average rbind]; eexists; reflexivity. }
  destruct OK as (u & R). pose proof (@calculate_run xr (F64 L) srt k w a o) as CR. rewrite R in CR. destruct CR as (o' & E & _).
  destruct (C09_used_events xr (F64 L) srt k w a o o' (u_b u) Hk E) as (idx & ms & Ei & Em & P & _).
  assert (X : forall i x, nth_error (mags_at j d ks) i = Some x -> exists q, nth_error ks i = Some q /\ x = Fin (decimal j d q)).
  { intros i x H. unfold mags_at in H. rewrite nth_error_map in H. destruct (nth_error ks i) as [q|]; [|discriminate]. injection H as <-. eauto. }
  destruct P as (P1 & P2 & P3). cbn [a_mags a_mc a_delta a] in P2, P3.
  assert (U : exists used, ms = mags_at j d used /\ Forall2 (fun i y => nth_error ks i = Some y) idx used).
  { clear - P3 X. induction P3 as [|i y idx ms H F IH]; [exists []; split; [reflexivity|constructor]|].
    destruct IH as (used & -> & G). destruct (X i y H) as (q & Q & ->). exists (q :: used). split; [reflexivity|]. constructor; assumption. }
  destruct U as (used & -> & U). exists o', (u_b u), idx, used. split; [exact E|]. split; [exact Ei|]. split; [exact Em|].
  split; [exact P1|]. split; [|exact U]. intros i. rewrite P2. split.
  - intros (x & Hx & G). destruct (X i x Hx) as (q & Q & ->). exists q. split; [exact Q|].
    rewrite (select_about L j d kc mc q W C Ab (below8_ok j d q (B q (nth_error_In _ _ Q)))) in G. apply Z.leb_le, G.
  - intros (q & Q & G). exists (Fin (decimal j d q)). split; [unfold mags_at; rewrite nth_error_map, Q; reflexivity|].
    rewrite (select_about L j d kc mc q W C Ab (below8_ok j d q (B q (nth_error_In _ _ Q)))). apply Z.leb_le, G.
Qed.

(** ** maximum curvature *)
(** magnitudes as an array; None is a missing value *)
Definition column (rs : list (option R)) : list xr := map (fun o => match o with Some r => Fin r | None => NaN end) rs.
(** the smallest of the most frequent indices *)
Definition fullest (km : Z) (Ks : list Z) : Prop :=
  In km Ks /\ forall K, (number K Ks <= number km Ks)%nat /\ ((K < km)%Z -> (number K Ks < number km Ks)%nat).
Lemma filter_column (L : libm) rs : filter (fun m => negb (@nisnan xr (F64 L) m)) (column rs) = map Fin (known rs).
Proof.
  unfold column. induction rs as [|o rs IH]; [reflexivity|]. cbn [map filter]. destruct o; cbn [known map]; [rewrite <- IH|]; [reflexivity | exact IH].
Qed.
Lemma number_pos K Ks : In K Ks -> (0 < number K Ks)%nat.
Proof.
  unfold number. intros H. destruct (filter (Z.eqb K) Ks) as [|x l] eqn:E; [|cbn; lia].
  assert (In K (filter (Z.eqb K) Ks)) by (apply filter_In; split; [exact H | apply Z.eqb_refl]). rewrite E in H0. destruct H0.
Qed.
Lemma number_zero K Ks : ~ In K Ks -> number K Ks = 0%nat.
Proof.
  unfold number. intros H. destruct (filter (Z.eqb K) Ks) as [|x l] eqn:E; [reflexivity|].
  assert (X : In x (filter (Z.eqb K) Ks)) by (rewrite E; left; reflexivity). apply filter_In in X as [X1 X2]. apply Z.eqb_eq in X2. subst. contradiction.
Qed.
Lemma nth_zseq lo n i : (i < n)%nat -> nth_error (zseq lo n) i = Some (lo + Z.of_nat i)%Z.
Proof.
  intros H. unfold zseq. rewrite nth_error_map. assert (E : nth_error (seq 0 n) i = Some i); [|rewrite E; reflexivity].
  rewrite (nth_error_nth' (seq 0 n) 0%nat) by (rewrite seq_length; exact H). rewrite seq_nth by exact H. reflexivity.
Qed.
Theorem C180_maxc : forall (L : libm) j d rs corr, sums_in_some_order L -> usual_width j d -> known rs <> [] -> (forall x, In x (known rs) -> Rabs x <= 80) ->
  (Z.of_nat (length (known rs)) <= 2 ^ 53)%Z -> Rabs corr <= 20 ->
  exists Ks km, Forall2 (fun x K => Rabs (x - IZR K * widthR j d) <= (1 / 2 + / 10000000) * widthR j d) (known rs) Ks /\ fullest km Ks /\
    @estimate_mc_maxc xr (F64 L) (column rs) (width j d) (Fin corr) = Ok (Fin (nearest_double (decimal j d km + corr))).
Proof.
  intros L j d rs corr SO W NE B Hn Hc.
  destruct (C175_fmd L j d (known rs) SO W NE B Hn) as (Ks & lo & hi & F & I0 & I1 & R & E). cbv zeta in E.
  assert (Hlh : (lo <= hi)%Z) by (apply (R hi); exact I1). set (n := Z.to_nat (hi - lo + 1)) in *. assert (Hn' : Z.of_nat n = (hi - lo + 1)%Z) by (unfold n; lia).
  unfold estimate_mc_maxc. rewrite filter_column, E. cbn [rbind].
  set (cs := map (fun K => INR (number K Ks)) (zseq lo n)).
  assert (Ec : map (fun K => Fin (INR (number K Ks))) (zseq lo n) = map Fin cs) by (unfold cs; rewrite map_map; reflexivity). rewrite Ec.
  assert (Lc : length cs = n) by (unfold cs, zseq; rewrite !map_length, seq_length; reflexivity).
  destruct (np_argmax_spec cs) as (i & v & Ea & Hv & Hall & Hfirst). { intros X. rewrite X in Lc. cbn in Lc. lia. }
  assert (Ea' : @np_argmax xr (F64 L) (map Fin cs) = Ok i) by exact Ea. rewrite Ea'. cbn [rbind].
  assert (Hi : (i < n)%nat) by (rewrite <- Lc; apply nth_error_Some; congruence).
  assert (Nth : forall q, (q < n)%nat -> nth_error cs q = Some (INR (number (lo + Z.of_nat q) Ks))).
  { intros q Hq. unfold cs. rewrite nth_error_map, nth_zseq by exact Hq. reflexivity. }
  rewrite (Nth i Hi) in Hv. injection Hv as Hv.
  unfold mags_at. rewrite nth_error_map, nth_zseq by exact Hi. cbn [option_map].
  set (km := (lo + Z.of_nat i)%Z) in *.
  assert (Le : forall K, (number K Ks <= number km Ks)%nat).
  { intros K. destruct (in_dec Z.eq_dec K Ks) as [HK|HK]; [|rewrite number_zero by exact HK; lia].
    specialize (R K HK). apply INR_le. rewrite Hv. apply Hall. apply (nth_error_In _ (Z.to_nat (K - lo))). rewrite Nth by lia. do 3 f_equal. lia. }
  assert (Pos : (0 < number km Ks)%nat) by (pose proof (Le lo); pose proof (number_pos lo Ks I0); lia).
  exists Ks, km. split; [exact F|]. split; [split; [|intros K; split; [apply Le|]]|].
  - destruct (in_dec Z.eq_dec km Ks) as [HK|HK]; [exact HK|]. rewrite number_zero in Pos by exact HK. lia.
  - intros HK. destruct (in_dec Z.eq_dec K Ks) as [HI|HI]; [|rewrite number_zero by exact HI; exact Pos].
    specialize (R K HI). apply INR_lt. rewrite Hv. apply (Hfirst (Z.to_nat (K - lo))); [unfold km in HK; lia|]. rewrite Nth by lia. do 3 f_equal. lia.
  - pose proof (W_bounds j d W) as WB.
    assert (Bk : Rabs (IZR km * widthR j d) <= 86).
    { assert (HK : In km Ks) by (destruct (in_dec Z.eq_dec km Ks) as [HK|HK]; [exact HK|rewrite number_zero in Pos by exact HK; lia]).
      assert (X : exists x, In x (known rs) /\ Rabs (x - IZR km * widthR j d) <= (1 / 2 + / 10000000) * widthR j d).
      { clear - F HK. induction F as [|x K' xs Ks H F IH]; [destruct HK|]. destruct HK as [->|HK]; [exists x; split; [left; reflexivity|exact H]|]. destruct (IH HK) as (y & Y & G). exists y. split; [right; exact Y|exact G]. }
      destruct X as (x & Hx & G). specialize (B x Hx). apply Rabs_le_inv in B, G. apply Rabs_le. lra. }
    pose proof (dec_bound j d km ltac:(unfold moderate; lra)) as Db. apply Rabs_le_inv in Db, Hc.
    rewrite f_add by (unfold big; apply Rabs_le; lra). reflexivity.
Qed.
(** Used with a correction on the grid (the default 0.2 for bins of 0.1), the result makes the
    estimators use exactly the events from the corrected bin on, although it need not be the
    double of the decimal number (C181). *)
Lemma maxc_about j d km kcor : usual_width j d -> moderate j d km -> moderate j d kcor -> about j d (km + kcor) (nearest_double (decimal j d km + decimal j d kcor)).
Proof.
  intros W C C'. pose proof (W_bounds j d W) as WB. pose proof (dec_near j d km C) as N. pose proof (dec_near j d kcor C') as N'.
  unfold about. unfold moderate in *. rewrite plus_IZR. apply Rabs_le_inv in N, N', C, C'.
  pose proof (rnd_err_le (decimal j d km + decimal j d kcor) 210 ltac:(apply Rabs_le; lra)) as E. unfold u, h in E. apply Rabs_le_inv in E.
  change (rnd (decimal j d km + decimal j d kcor)) with (nearest_double (decimal j d km + decimal j d kcor)) in E. apply Rabs_le. lra.
Qed.
Lemma known_mags j d ks : mags_at j d ks = column (map (fun k => Some (decimal j d k)) ks).
Proof. unfold mags_at, column. rewrite map_map. reflexivity. Qed.
Lemma near_unique j d ks Ks : usual_width j d -> (forall k, In k ks -> moderate j d k) ->
  Forall2 (fun x K => Rabs (x - IZR K * widthR j d) <= (1 / 2 + / 10000000) * widthR j d) (map (decimal j d) ks) Ks -> Ks = ks.
Proof.
  intros W M. revert Ks. induction ks as [|k ks IH]; intros Ks F; inversion F; subst; [reflexivity|]. f_equal.
  - pose proof (W_bounds j d W) as WB. pose proof (dec_near j d k (M k (or_introl eq_refl))) as N. apply Rabs_le_inv in N, H1.
    assert (Hlt : Rabs (IZR (y - k)) < 1).
    { rewrite minus_IZR. apply Rabs_lt. split.
      - apply Rnot_le_lt. intros X. assert ((IZR y - IZR k) * widthR j d <= -1 * widthR j d) by (apply Rmult_le_compat_r; lra). nra.
      - apply Rnot_le_lt. intros X. assert (1 * widthR j d <= (IZR y - IZR k) * widthR j d) by (apply Rmult_le_compat_r; lra). nra. }
    rewrite <- abs_IZR in Hlt. apply lt_IZR in Hlt. lia.
  - apply IH; [intros; apply M; right; assumption | assumption].
Qed.
Theorem C180_maxc_then_estimate : forall (L : libm) srt k w j d ks kcor o, sums_in_some_order L -> usual_width j d -> k = Classic \/ k = Utsu ->
  ks <> [] -> (forall i, In i ks -> below8 j d i) -> (Z.of_nat (length ks) <= 2 ^ 53)%Z -> Rabs (IZR kcor * widthR j d) <= 10 ->
  exists km mc o' b idx used, fullest km ks /\ @estimate_mc_maxc xr (F64 L) (mags_at j d ks) (width j d) (Fin (decimal j d kcor)) = Ok mc /\
    @calculate xr (F64 L) srt k w (mkargs (mags_at j d ks) mc (width j d) None None None) o = (o', Ok b) /\
    o_idx o' = Some idx /\ o_mags o' = Some (mags_at j d used) /\ picks (fun i => (km + kcor <= i)%Z) ks idx used.
Proof.
  intros L srt k w j d ks kcor o SO W Hk NE B Hn Hc. assert (Mc : moderate j d kcor) by (unfold moderate; lra).
  pose proof (dec_near j d kcor Mc) as Nc. apply Rabs_le_inv in Nc, Hc.
  assert (Kn : known (map (fun k => Some (decimal j d k)) ks) = map (decimal j d) ks) by (rewrite <- (map_map (decimal j d) Some); apply known_some).
  destruct (C180_maxc L j d (map (fun k => Some (decimal j d k)) ks) (decimal j d kcor) SO W) as (Ks & km & F & Fu & E).
  - rewrite Kn. destruct ks; [congruence | discriminate].
  - rewrite Kn. intros x Hx. apply in_map_iff in Hx as (q & <- & Hq). specialize (B q Hq). unfold below8 in B.
    pose proof (dec_near j d q (below8_ok j d q B)) as N. apply Rabs_le_inv in N. apply Rabs_def2 in B. apply Rabs_le. lra.
  - rewrite Kn, map_length. exact Hn.
  - apply Rabs_le. lra.
  - rewrite Kn in F. apply near_unique in F; [|exact W|intros; apply below8_ok, B; assumption]. subst Ks. rewrite <- known_mags in E.
    assert (Bm : below8 j d km) by (apply B, Fu).
    assert (Ms : moderate j d (km + kcor)) by (unfold moderate, below8 in *; rewrite plus_IZR; apply Rabs_def2 in Bm; apply Rabs_le; lra).
    destruct (C180_complete_events L srt k w j d ks (km + kcor) _ o W Hk B Ms (maxc_about j d km kcor W (below8_ok j d km Bm) Mc)) as (o' & b & idx & used & H).
    exists km, (Fin (nearest_double (decimal j d km + decimal j d kcor))), o', b, idx, used. split; [exact Fu|]. split; [exact E|]. exact H.
Qed.

(** C181 (refuted): the result is the double of the decimal number.  For the fullest bin 2.1 and the
    default correction 0.2 it is 2.3000000000000003, and an event of magnitude 2.3 is below it. *)
Lemma w11' K : IZR K * widthR 1 1 = IZR K / 10.
Proof. unfold widthR. change (10 ^ Z.of_nat 1)%Z with 10%Z. lra. Qed.
Lemma d21 : decimal 1 1 21 = IZR 4728779608739021 * bpow radix2 (-51).
Proof. unfold decimal. rewrite w11'. apply (rnd_is _ 4728779608739021 (-51)); [lia | lia |]. cbn [bpow radix2]. apply Rabs_lt. cbn. lra. Qed.
Lemma d23 : decimal 1 1 23 = IZR 5179139571476070 * bpow radix2 (-51).
Proof. unfold decimal. rewrite w11'. apply (rnd_is _ 5179139571476070 (-51)); [lia | lia |]. cbn [bpow radix2]. apply Rabs_lt. cbn. lra. Qed.
Lemma d2 : decimal 1 1 2 = IZR 7205759403792794 * bpow radix2 (-55).
Proof. unfold decimal. rewrite w11'. apply (rnd_is _ 7205759403792794 (-55)); [lia | lia |]. cbn [bpow radix2]. apply Rabs_lt. cbn. lra. Qed.
Lemma maxc_val : nearest_double (decimal 1 1 21 + decimal 1 1 2) = IZR 5179139571476071 * bpow radix2 (-51).
Proof. rewrite d21, d2. apply (rnd_is _ 5179139571476071 (-51)); [lia | lia |]. cbn [bpow radix2]. apply Rabs_lt. cbn. lra. Qed.
Lemma maxc_sum : decimal 1 1 23 < nearest_double (decimal 1 1 21 + decimal 1 1 2).
Proof. rewrite maxc_val, d23. cbn. lra. Qed.
Theorem C181_decimal_result_refuted :
  ~ (forall (L : libm) ks mc, sums_in_some_order L -> ks <> [] -> (forall i, In i ks -> below8 1 1 i) ->
       @estimate_mc_maxc xr (F64 L) (mags_at 1 1 ks) (width 1 1) (Fin (decimal 1 1 2)) = Ok mc -> exists K, mc = Fin (decimal 1 1 K)) /\
  (forall (L : libm) ks, sums_in_some_order L -> ks <> [] -> (forall i, In i ks -> below8 1 1 i) -> (Z.of_nat (length ks) <= 2 ^ 53)%Z -> fullest 21 ks ->
     exists mc, @estimate_mc_maxc xr (F64 L) (mags_at 1 1 ks) (width 1 1) (Fin (decimal 1 1 2)) = Ok mc /\ @nleb xr (F64 L) mc (Fin (decimal 1 1 23)) = false).
Proof.
  assert (G : forall (L : libm) ks, sums_in_some_order L -> ks <> [] -> (forall i, In i ks -> below8 1 1 i) -> (Z.of_nat (length ks) <= 2 ^ 53)%Z -> fullest 21 ks ->
     @estimate_mc_maxc xr (F64 L) (mags_at 1 1 ks) (width 1 1) (Fin (decimal 1 1 2)) = Ok (Fin (nearest_double (decimal 1 1 21 + decimal 1 1 2)))).
  { intros L ks SO NE B Hn Fu.
    assert (Kn : known (map (fun k => Some (decimal 1 1 k)) ks) = map (decimal 1 1) ks) by (rewrite <- (map_map (decimal 1 1) Some); apply known_some).
    destruct (C180_maxc L 1 1 (map (fun k => Some (decimal 1 1 k)) ks) (decimal 1 1 2) SO ex_width) as (Ks & km & F & Fk & E).
    - rewrite Kn. destruct ks; [congruence | discriminate].
    - rewrite Kn. intros x Hx. apply in_map_iff in Hx as (q & <- & Hq). specialize (B q Hq). 
      pose proof (dec_near 1 1 q (below8_ok 1 1 q B)) as N. unfold below8 in B. apply Rabs_le_inv in N. apply Rabs_def2 in B. apply Rabs_le. lra.
    - rewrite Kn, map_length. exact Hn.
    - rewrite d2. cbn. apply Rabs_le. lra.
    - rewrite Kn in F. apply near_unique in F; [|exact ex_width|intros; apply below8_ok, B; assumption]. subst Ks.
      assert (Ek : km = 21%Z).
      { destruct Fu as [_ F1], Fk as [_ F2]. pose proof (F1 km) as [A1 A2]. pose proof (F2 21%Z) as [B1 B2]. destruct (Z.lt_trichotomy km 21) as [X|[X|X]]; [specialize (A2 X); lia | exact X | specialize (B2 X); lia]. }
      subst km. rewrite known_mags. exact E. }
  split.
  - intros H. assert (B : forall i, In i [21%Z] -> below8 1 1 i) by (intros i [<-|[]]; unfold below8; rewrite w11'; apply Rabs_lt; lra).
    assert (SO : sums_in_some_order left_lib) by (apply C175_example).
    assert (Fu : fullest 21 [21%Z]).
    { split; [left; reflexivity|]. intros K. unfold number. cbn [filter]. destruct (Z.eqb_spec K 21) as [->|N]; cbn; [split; [lia | lia] | split; lia]. }
    pose proof (G left_lib [21%Z] SO ltac:(discriminate) B ltac:(cbn; lia) Fu) as E.
    destruct (H left_lib [21%Z] _ SO ltac:(discriminate) B E) as (K & EK). apply (f_equal (fun v => match v with Fin r => r | _ => 0 end)) in EK.
    pose proof maxc_sum as S1.
    assert (Up : nearest_double (decimal 1 1 21 + decimal 1 1 2) < decimal 1 1 24).
    { rewrite maxc_val. pose proof (dec_near 1 1 24 ltac:(unfold moderate; rewrite w11'; apply Rabs_le; lra)) as N. rewrite w11' in N. apply Rabs_le_inv in N. cbn. lra. }
    rewrite EK in S1, Up.
    destruct (Z_le_gt_dec K 23) as [X|X].
    + pose proof (D_mono 1 1 ex_width K 23 X). lra.
    + pose proof (D_mono 1 1 ex_width 24 K ltac:(lia)). lra.
  - intros L ks SO NE B Hn Fu. eexists. split; [apply G; assumption|]. cbn [nleb F64 xleb]. apply rle_false. exact maxc_sum.
Qed.
Print Assumptions C180_complete_events.
Print Assumptions C180_maxc.
Print Assumptions C180_maxc_then_estimate.
Print Assumptions C181_decimal_result_refuted.
Example C180_example : sums_in_some_order left_lib /\ usual_width 1 1 /\ (forall i, In i [21; 35; 21; 18]%Z -> below8 1 1 i) /\ fullest 21 [21; 35; 21; 18]%Z /\
  about 1 1 23 (nearest_double (decimal 1 1 21 + decimal 1 1 2)) /\ picks (fun i => (21 + 2 <= i)%Z) [21; 35; 21; 18]%Z [1]%nat [35]%Z.
Proof.
  split; [apply C175_example|]. split; [exact ex_width|]. split; [|split; [|split]].
  - intros i Hi. unfold below8. rewrite w11. cbn [In] in Hi. destruct Hi as [<-|[<-|[<-|[<-|[]]]]]; apply Rabs_lt; lra.
  - split; [left; reflexivity|]. intros K. unfold number. cbn [filter].
    destruct (Z.eqb_spec K 21) as [->|N]; [cbn; lia|]. destruct (Z.eqb_spec K 35) as [->|N2]; [cbn; lia|]. destruct (Z.eqb_spec K 18) as [->|N3]; cbn; lia.
  - apply (maxc_about 1 1 21 2 ex_width); unfold moderate; rewrite w11; apply Rabs_le; lra.
  - split; [repeat constructor|]. split; [|repeat constructor]. intros i. cbn [In]. split.
    + intros [<-|[]]; cbn [nth_error]; eexists; (split; [reflexivity|lia]).
    + intros (x & E & G). destruct i as [|[|[|[|i]]]]; cbn [nth_error] in E; try (injection E as <-); try lia; try tauto. destruct i; discriminate E.
Qed.
