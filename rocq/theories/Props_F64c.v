(** * C176: the accuracy of the b-value in IEEE double precision

    [F64 L] are the operations of double precision; [L] leaves open how np.log rounds and in
    which order np.sum adds.  The estimates are compared with exact arithmetic on the decimal
    magnitudes k * delta, not on their doubles: representation error, rounding of every
    operation and the error of the logarithm are all included. *)
From Coq Require Import ZArith List Bool Reals Lia Lra Psatz Permutation Sorted.
From Flocq Require Import Core.
From Verif Require Import Base Num XR RList SortLib Binning_model BValue_model BValue_run Spec_BValue BValue_proofs Props_BValue Props_BValue2
  Spec_Positive Positive_proofs Props_Positive Openquake_model F64 Spec_F64 F64_proofs F64_test F64_select F64_fmd Props_F64 Props_F64b F64_acc F64_est.
Import ListNotations.
Open Scope R_scope.

(** the double result [b] and the exact value [e]: relative error for [n] magnitudes *)
Definition accurate (delta : R) (n : nat) (b e : R) : Prop := Rabs (b - e) <= e * allowed_error delta n.

Lemma compress_filter {A} (p : A -> bool) l : compress (map p l) l = filter p l.
Proof. induction l as [|a l IH]; [reflexivity|]. cbn [map compress filter]. rewrite IH. destruct (p a); reflexivity. Qed.
Lemma f_mags_at (L : libm) j d ks kc : usual_width j d -> (forall i, In i ks -> below8 j d i) -> moderate j d kc ->
  @f_mags xr (F64 L) (mkargs (mags_at j d ks) (Fin (decimal j d kc)) (width j d) None None None) = mags_at j d (filter (Z.leb kc) ks).
Proof.
  intros W B C. unfold f_mags, keep, thr. cbn [a_mags a_mc a_delta]. rewrite compress_filter. unfold mags_at. clear - W B C.
  induction ks as [|k ks IH]; [reflexivity|]. cbn [map filter].
  pose proof (select L j d W kc k C (below8_ok j d k (B k (or_introl eq_refl)))) as S. unfold FI6 in S. rewrite S.
  rewrite IH by (intros; apply B; right; assumption). destruct (kc <=? k)%Z; reflexivity.
Qed.

(** the classic and the Utsu estimator.  For the classic one not all magnitudes may equal mc
    (the exact estimate would be infinite). *)
Theorem C176_classic_and_utsu : forall (L : libm) srt k w j d ks kc o,
  sums_in_some_order L -> log_accurate L -> usual_width j d ->
  (forall i, In i ks -> below8 j d i) -> moderate j d kc ->
  let delta := widthR j d in
  let used := filter (Z.leb kc) ks in
  (Z.of_nat (length used) <= 2 ^ 40)%Z ->
  k = Classic /\ (exists i, In i ks /\ (kc < i)%Z) \/ k = Utsu /\ used <> [] ->
  exists o' b,
    @calculate xr (F64 L) srt k w (mkargs (mags_at j d ks) (Fin (decimal j d kc)) (width j d) None None None) o = (o', Ok (Fin b)) /\
    accurate delta (length used) b ((match k with Utsu => exact_utsu | _ => exact_classic end) delta (mean_excess delta kc used)).
Proof.
  intros L srt k w j d ks kc o HS HL W B C delta used Hn Hk.
  set (a := mkargs (mags_at j d ks) (Fin (decimal j d kc)) (width j d) None None None).
  assert (HU : forall i, In i used -> moderate j d i /\ (kc <= i)%Z).
  { intros i Hi. apply filter_In in Hi. destruct Hi as (Hi & Hl). split; [apply below8_ok, B, Hi|apply Z.leb_le, Hl]. }
  pose proof (f_mags_at L j d ks kc W B C) as FM. fold a used in FM.
  assert (Hp : is_pos k = false) by (destruct Hk as [[-> _]|[-> _]]; reflexivity).
  assert (NE : used <> []).
  { destruct Hk as [[_ (i & Hi & Hl)]|[_ H]]; [|exact H]. intros F. assert (In i used) by (apply filter_In; split; [exact Hi|apply Z.leb_le; lia]). rewrite F in H. destruct H. }
  assert (R : exists u b, @run xr (F64 L) srt k a = Ok u /\ u_b u = Fin b /\ accurate delta (length used) b ((match k with Utsu => exact_utsu | _ => exact_classic end) delta (mean_excess delta kc used))).
  { rewrite run_dmc by (intros [X|X]; destruct Hk as [[Y _]|[Y _]]; congruence). rewrite check_binned by (apply (mags_at_ok L j d ks); auto). cbn [a_weights a rbind].
    unfold f_times. rewrite Hp. cbn [rbind]. fold a. rewrite FM.
    unfold mags_at. destruct used as [|u0 ut] eqn:EU; [congruence|]. cbn [map]. rewrite <- EU in *.
    change (Fin (decimal j d u0) :: map (fun k0 : Z => Fin (decimal j d k0)) ut) with (at_index j d (u0 :: ut)). rewrite <- EU.
    unfold accurate. destruct Hk as [[-> (i & Hi & Hl)]|[-> _]]; cbn [run_est a_mc a_delta a]; change (f_weights _) with (@None (list xr)).
    - destruct (mle_accurate L j d W HS HL used kc HU C) as (b & Eb & Ab); [exists i; split; [apply filter_In; split; [exact Hi|apply Z.leb_le; lia]|exact Hl]|exact Hn|].
      unfold FI8 in Eb. rewrite Eb. cbn [rbind]. eexists _, b. split; [reflexivity|]. split; [reflexivity|exact Ab].
    - destruct (utsu_accurate L j d W HS HL used kc HU C NE Hn) as (b & Eb & Ab).
      unfold FI8 in Eb. rewrite Eb. cbn [rbind]. eexists _, b. split; [reflexivity|]. split; [reflexivity|exact Ab]. }
  destruct R as (u & b & R & Eb & Ab). pose proof (@calculate_run xr (F64 L) srt k w a o) as CR. rewrite R in CR. destruct CR as (o' & E & _).
  exists o', b. rewrite <- Eb. split; [exact E|exact Ab].
Qed.
Print Assumptions C176_classic_and_utsu.

(** b-positive and b-more-positive: the estimate from the differences used (C174) *)
Lemma pos_est (L : libm) j d (W : usual_width j d) (HS : sums_in_some_order L) (HL : log_accurate L) (A : Type) (diff : A -> Z) (used : list A) kd b : (forall p, In p used -> moderate j d (diff p) /\ (kd <= diff p)%Z) ->
  moderate j d kd -> (exists p, In p used /\ (kd < diff p)%Z) -> (Z.of_nat (length used) <= 2 ^ 40)%Z ->
  @mle_estimator xr (F64 L) (mags_at j d (map diff used)) (Fin (decimal j d kd)) (width j d) None = Ok b ->
  exists b', b = Fin b' /\ accurate (widthR j d) (length used) b' (exact_classic (widthR j d) (mean_excess (widthR j d) kd (map diff used))).
Proof.
  intros Hu Hd (p1 & Hi & Hl) Hn E. destruct (mle_accurate L j d W HS HL (map diff used) kd) as (b' & Eb & Ab).
  - intros k Hk. apply in_map_iff in Hk. destruct Hk as (p & <- & Hp). apply Hu, Hp.
  - exact Hd.
  - exists (diff p1). split; [apply in_map, Hi|exact Hl].
  - rewrite map_length. exact Hn.
  - unfold FI8 in Eb. unfold at_index in Eb. unfold mags_at in E. rewrite Eb in E. exists b'. split; [congruence|]. unfold accurate. rewrite map_length in Ab. exact Ab.
Qed.
Lemma diff8 j d a b : below8 j d a -> below8 j d b -> moderate j d (a - b).
Proof. unfold below8, moderate. intros H H'. rewrite minus_IZR. apply Rabs_def2 in H, H'. apply Rabs_le. lra. Qed.
Theorem C176_positive : forall (L : libm) srt w j d ks kc kd times o o' b,
  sums_in_some_order L -> log_accurate L -> usual_width j d -> @argsort_ok xr (F64 L) srt ->
  (forall i, In i ks -> below8 j d i) -> moderate j d kc -> moderate j d kd ->
  match times with None => True | Some ts => length ts = length ks end -> (Z.of_nat (length ks) <= 2 ^ 40)%Z ->
  @calculate xr (F64 L) srt BPositive w (mkargs (mags_at j d ks) (Fin (decimal j d kc)) (width j d) None times (Some (Fin (decimal j d kd)))) o = (o', Ok b) ->
  let delta := widthR j d in
  exists order, in_order ks kc times order L /\
    let diff p := (nth (snd p) ks 0 - nth (fst p) ks 0)%Z in
    let used := filter (fun p => (kd <=? diff p)%Z) (consecutive order) in
    (exists p, In p used /\ (kd < diff p)%Z) ->
    exists b', b = Fin b' /\ accurate delta (length used) b' (exact_classic delta (mean_excess delta kd (map diff used))).
Proof.
  intros L srt w j d ks kc kd times o o' b HS HL W Hs B C CdOpen Ht Hn E delta.
  assert (TF : @times_fit xr (mkargs (mags_at j d ks) (Fin (decimal j d kc)) (width j d) None times (Some (Fin (decimal j d kd))))).
  { unfold times_fit. cbn. destruct times; [|exact I]. unfold mags_at. rewrite map_length. exact Ht. }
  destruct (C18_used_differences xr (F64 L) srt w _ o o' b Hs TF E) as (order & To & H). cbv zeta in H. cbn [a_mags a_mc a_delta a_dmc a_times a_weights] in To, H.
  destruct H as (Em & Ei & Ew & _ & _ & _ & H). apply order_indices in To; [|exact W|exact B|exact C]. exists order. split; [exact To|]. cbv zeta. cbn [option_map] in Ew. rewrite Ew in H.
  set (diff := fun p : nat * nat => (nth (snd p) ks 0 - nth (fst p) ks 0)%Z).
  destruct To as (Nd & I & _).
  assert (Q : forall p, In p (consecutive order) -> below8 j d (nth (fst p) ks 0%Z) /\ below8 j d (nth (snd p) ks 0%Z) /\
    nth (fst p) (mags_at j d ks) (@nnan xr (F64 L)) = Fin (decimal j d (nth (fst p) ks 0%Z)) /\ nth (snd p) (mags_at j d ks) (@nnan xr (F64 L)) = Fin (decimal j d (nth (snd p) ks 0%Z))).
  { intros p Hp. apply consecutive_in in Hp. destruct Hp as [H1 H2]. apply I in H1, H2. repeat split; try (apply B, nth_In; tauto); apply nth_mags; tauto. }
  assert (F : filter (fun p => @nleb xr (F64 L) (@nsub xr (F64 L) (Fin (decimal j d kd)) (@ndiv xr (F64 L) (@dec_val xr (F64 L) (width j d)) (@two xr (F64 L))))
       (@nsub xr (F64 L) (nth (snd p) (mags_at j d ks) (@nnan xr (F64 L))) (nth (fst p) (mags_at j d ks) (@nnan xr (F64 L))))) (consecutive order)
     = filter (fun p => (kd <=? diff p)%Z) (consecutive order)).
  { apply filter_ext_in. intros p Hp. destruct (Q p Hp) as (M1 & M2 & -> & ->). exact (select_diff L j d W kd _ _ CdOpen (below8_ok j d _ M1) (below8_ok j d _ M2)). }
  rewrite F in H. intros (p1 & Hp1 & Hl1).
  assert (NE : order <> []) by (intros ->; destruct Hp1). specialize (H NE). clear F.
  pose proof (width_positive L j d W) as P. unfold FI6 in P. rewrite P in H.
  set (used := filter (fun p => (kd <=? diff p)%Z) (consecutive order)) in *.
  assert (X : map (@bin_elem xr (F64 L) (width j d)) (map (fun p => @nsub xr (F64 L) (nth (snd p) (mags_at j d ks) (@nnan xr (F64 L))) (nth (fst p) (mags_at j d ks) (@nnan xr (F64 L)))) used) = mags_at j d (map diff used)).
  { unfold mags_at at 3. rewrite !map_map. apply map_ext_in. intros p Hp. apply filter_In in Hp.
    destruct (Q p (proj1 Hp)) as (M1 & M2 & -> & ->). exact (bin_diff L j d W _ _ (below8_ok j d _ M1) (below8_ok j d _ M2)). }
  rewrite X in H. apply (pos_est L j d W HS HL _ diff used kd); [|exact CdOpen|exists p1; split; assumption| |exact H].
  - intros p Hp. apply filter_In in Hp. destruct (Q p (proj1 Hp)) as (M1 & M2 & _). split; [apply diff8; assumption|apply Z.leb_le; tauto].
  - assert (LU : (length used <= length ks)%nat).
    { unfold used. etransitivity; [apply filter_le|]. unfold consecutive. rewrite combine_length. etransitivity; [apply Nat.le_min_l|].
      rewrite <- (seq_length (length ks) 0). apply NoDup_incl_length; [exact Nd|]. intros i Hi. apply in_seq. apply I in Hi. lia. }
    lia.
Qed.
Print Assumptions C176_positive.

Theorem C176_more_positive : forall (L : libm) srt w j d ks kc kd times o o' b,
  sums_in_some_order L -> log_accurate L -> usual_width j d -> @argsort_ok xr (F64 L) srt ->
  (forall i, In i ks -> below8 j d i) -> moderate j d kc -> moderate j d kd ->
  match times with None => True | Some ts => length ts = length ks end -> (Z.of_nat (length ks) <= 2 ^ 40)%Z ->
  @calculate xr (F64 L) srt BMorePositive w (mkargs (mags_at j d ks) (Fin (decimal j d kc)) (width j d) None times (Some (Fin (decimal j d kd)))) o = (o', Ok b) ->
  let delta := widthR j d in
  exists order, in_order ks kc times order L /\
    let diff p := (nth (snd p) ks 0 - nth (fst p) ks 0)%Z in
    let used := next_pairs (fun i i' => (kd <=? nth i' ks 0 - nth i ks 0)%Z) order in
    (exists p, In p used /\ (kd < diff p)%Z) ->
    exists b', b = Fin b' /\ accurate delta (length used) b' (exact_classic delta (mean_excess delta kd (map diff used))).
Proof.
  intros L srt w j d ks kc kd times o o' b HS HL W Hs B C CdOpen Ht Hn E delta.
  assert (TF : @times_fit xr (mkargs (mags_at j d ks) (Fin (decimal j d kc)) (width j d) None times (Some (Fin (decimal j d kd))))).
  { unfold times_fit. cbn. destruct times; [|exact I]. unfold mags_at. rewrite map_length. exact Ht. }
  destruct (C19_used_pairs xr (F64 L) srt w _ o o' b Hs TF E) as (order & To & H). cbv zeta in H. cbn [a_mags a_mc a_delta a_dmc a_times a_weights] in To, H.
  destruct H as (Em & Ei & Ew & _ & _ & _ & H). apply order_indices in To; [|exact W|exact B|exact C]. exists order. split; [exact To|]. cbv zeta. cbn [option_map] in Ew. rewrite Ew in H.
  set (diff := fun p : nat * nat => (nth (snd p) ks 0 - nth (fst p) ks 0)%Z).
  destruct To as (Nd & I & _).
  assert (Q : forall i, In i order -> below8 j d (nth i ks 0%Z) /\ nth i (mags_at j d ks) (@nnan xr (F64 L)) = Fin (decimal j d (nth i ks 0%Z))).
  { intros i Hi. apply I in Hi. split; [apply B, nth_In; tauto|apply nth_mags; tauto]. }
  rewrite (next_pairs_ext _ (fun i i' => (kd <=? nth i' ks 0 - nth i ks 0)%Z)) in H.
  2: intros i i' Hi Hi'; destruct (Q i Hi) as (M1 & ->); destruct (Q i' Hi') as (M2 & ->); exact (select_diff L j d W kd _ _ CdOpen (below8_ok j d _ M1) (below8_ok j d _ M2)).
  intros (p1 & Hp1 & Hl1).
  assert (NE : order <> []) by (intros ->; destruct Hp1). specialize (H NE).
  set (used := next_pairs (fun i i' => (kd <=? nth i' ks 0 - nth i ks 0)%Z) order) in *.
  assert (X : map (fun p => @bin_elem xr (F64 L) (width j d) (@nsub xr (F64 L) (nth (snd p) (mags_at j d ks) (@nnan xr (F64 L))) (nth (fst p) (mags_at j d ks) (@nnan xr (F64 L))))) used = mags_at j d (map diff used)).
  { unfold mags_at at 3. rewrite !map_map. apply map_ext_in. intros p Hp. apply next_pairs_in in Hp.
    destruct (Q _ (proj1 Hp)) as (M1 & ->). destruct (Q _ (proj2 Hp)) as (M2 & ->). exact (bin_diff L j d W _ _ (below8_ok j d _ M1) (below8_ok j d _ M2)). }
  rewrite X in H. apply (pos_est L j d W HS HL _ diff used kd); [|exact CdOpen|exists p1; split; assumption| |exact H].
  - intros p Hp. split.
    + apply next_pairs_in in Hp. destruct (Q _ (proj1 Hp)) as (M1 & _). destruct (Q _ (proj2 Hp)) as (M2 & _). apply diff8; assumption.
    + unfold used in Hp. clear - Hp. induction order as [|i t IH]; [destruct Hp|]. cbn [next_pairs] in Hp.
      destruct (find _ t) as [q|] eqn:Fq; [|apply IH, Hp]. destruct Hp as [<-|Hp]; [|apply IH, Hp]. apply find_some in Fq. unfold diff. cbn [fst snd]. apply Z.leb_le; tauto.
  - assert (LU : (length used <= length ks)%nat).
    { unfold used. transitivity (length order).
      - clear. induction order as [|i t IH]; [cbn; lia|]. cbn [next_pairs]. destruct (find _ t); cbn [length]; lia.
      - rewrite <- (seq_length (length ks) 0). apply NoDup_incl_length; [exact Nd|]. intros i Hi. apply in_seq. apply I in Hi. lia. }
    lia.
Qed.
Print Assumptions C176_more_positive.

(** for catalogues of up to a million events and bins of 0.01 or more: nine correct digits *)
Theorem C176_nine_digits : forall j d n b e, usual_width j d -> 1 / 100 <= widthR j d -> (Z.of_nat n <= 1000000)%Z -> 0 <= e ->
  accurate (widthR j d) n b e -> Rabs (b - e) <= e * / 1000000000.
Proof.
  intros j d n b e (_ & _ & W2) W Hn He A. eapply Rle_trans; [exact A|]. apply Rmult_le_compat_l; [exact He|]. unfold allowed_error.
  assert (N : INR n <= 1000000) by (rewrite INR_IZR_INZ; apply IZR_le, Hn).
  assert (I : / widthR j d <= 100) by (replace 100 with (/ (1 / 100)) by field; apply Rinv_le_contravar; lra).
  unfold Rdiv. lra.
Qed.
Print Assumptions C176_nine_digits.

(** a library that adds from left to right and rounds the exact logarithm meets the contracts *)
Definition rounding_lib : libm := Build_libm left_sum (fun x => match x with Fin r => fl (ln r) | _ => x end) (fun x => x) (fun x => x) (fun x => x) (fun x => x) (fun x => x) (fun x _ => x).
Example C176_example : sums_in_some_order rounding_lib /\ log_accurate rounding_lib.
Proof.
  split; [exact (proj1 C175_example)|]. intros x Hx Hf. cbn [l_ln rounding_lib].
  assert (L2 : ln x <= 1024).
  { apply Rle_trans with (ln maxfin); [apply ln_mono; lra|]. unfold maxfin. rewrite bpow_exp, ln_exp.
    pose proof (ln_tangent 2 1 ltac:(lra) ltac:(lra)) as T. rewrite ln_1 in T. change (IZR radix2) with 2. lra. }
  assert (L1 : / 100000000000000000000 <= ln x).
  { assert (X : 1 + / 10000000000000000 <= x).
    { destruct (Rle_lt_dec (1 + / 10000000000000000) x) as [G|G]; [exact G|]. exfalso.
      destruct (lattice 1 x ltac:(lia)) as (n & En); [cbn; lra|rewrite <- Hf; apply rnd_format|]. cbn in En.
      assert (4503599627370496 < IZR n) by lra. apply lt_IZR in H. assert (4503599627370497 <= n)%Z by lia. apply IZR_le in H0. lra. }
    pose proof (ln_tangent 1 x ltac:(lra) ltac:(lra)) as T. rewrite ln_1 in T. replace ((1 - x) / x) with (/ x - 1) in T by (field; lra).
    assert (/ x <= / (1 + / 10000000000000000)) by (apply Rinv_le_contravar; lra). lra. }
  rewrite fl_fin by (rewrite Rabs_pos_eq by lra; unfold big; lra). eexists. split; [reflexivity|].
  pose proof (near_rnd (ln x) ltac:(unfold h; lra)) as N. eapply Rle_trans; [apply (err_of_near r1); [lra|unfold r1, u; lra|exact N]|].
  unfold Rdiv. apply Rmult_le_compat_l; [lra|]. unfold r1, u. lra.
Qed.
