(** * C182: cumulative frequency-magnitude distributions in double precision *)
From Coq Require Import ZArith List Bool Reals Lia Lra Psatz Permutation Sorted.
From Flocq Require Import Core.
From Verif Require Import Base Num XR RList Binning_model Openquake_model F64 Spec_F64 F64_proofs F64_test F64_select F64_fmd Props_F64 Props_F64b Props_Binning.
Import ListNotations.
Open Scope R_scope.

(** how many indices are at least K *)
Definition at_least (K : Z) (Ks : list Z) : nat := length (filter (Z.leb K) Ks).

(** ** sums of counts are exact *)
Definition FN (n : nat) : xr := Fin (INR n).
Fixpoint prefix_sums (acc : nat) (ns : list nat) : list nat := match ns with [] => [] | n :: t => (acc + n)%nat :: prefix_sums (acc + n) t end.
Definition total_of (ns : list nat) : nat := fold_right Nat.add 0%nat ns.
Lemma add_counts (L : libm) a b : (Z.of_nat (a + b) <= 2 ^ 53)%Z -> @nadd xr (F64 L) (FN a) (FN b) = FN (a + b).
Proof. intros H. unfold FN. cbn [nadd F64 xadd fix64]. rewrite <- plus_INR. apply fl_nat. exact H. Qed.
Lemma cumsum_counts (L : libm) ns : forall acc, (Z.of_nat (acc + total_of ns) <= 2 ^ 53)%Z -> @cumsum_from xr (F64 L) (FN acc) (map FN ns) = map FN (prefix_sums acc ns).
Proof.
  induction ns as [|n ns IH]; intros acc H; [reflexivity|]. cbn [map cumsum_from prefix_sums]. cbn [total_of fold_right] in H. fold (total_of ns) in H.
  rewrite add_counts by lia. rewrite IH by lia. reflexivity.
Qed.
Lemma np_cumsum_counts (L : libm) ns : (Z.of_nat (total_of ns) <= 2 ^ 53)%Z -> @np_cumsum xr (F64 L) (map FN ns) = map FN (prefix_sums 0 ns).
Proof.
  destruct ns as [|n ns]; [reflexivity|]. cbn [map np_cumsum prefix_sums total_of fold_right]. intros H. fold (total_of ns) in H. rewrite cumsum_counts by lia. reflexivity.
Qed.
Lemma prefix_app a b acc : prefix_sums acc (a ++ b) = prefix_sums acc a ++ prefix_sums (acc + total_of a) b.
Proof.
  revert acc. induction a as [|n a IH]; intros acc; cbn [app prefix_sums total_of fold_right]; [rewrite Nat.add_0_r; reflexivity|].
  rewrite IH. cbn [app]. fold (total_of a). rewrite Nat.add_assoc. reflexivity.
Qed.
Lemma total_app a b : total_of (a ++ b) = (total_of a + total_of b)%nat.
Proof. unfold total_of. induction a as [|n a IH]; [reflexivity|]. cbn [app fold_right]. rewrite IH. lia. Qed.
Lemma total_rev a : total_of (rev a) = total_of a.
Proof. induction a as [|n a IH]; [reflexivity|]. cbn [rev]. rewrite total_app, IH. unfold total_of. cbn [fold_right]. lia. Qed.
(** the reverse cumulative sums of the counts of consecutive bins *)
Lemma suffix_counts Ks : forall n lo, (forall K, In K Ks -> (K < lo + Z.of_nat n)%Z) ->
  rev (prefix_sums 0 (rev (map (fun K => number K Ks) (zseq lo n)))) = map (fun K => at_least K Ks) (zseq lo n) /\
  total_of (map (fun K => number K Ks) (zseq lo n)) = at_least lo Ks.
Proof.
  induction n as [|n IH]; intros lo H.
  - split; [reflexivity|]. cbn. unfold at_least. symmetry. apply length_zero_iff_nil.
    destruct (filter (Z.leb lo) Ks) as [|x l] eqn:E; [reflexivity|]. assert (X : In x (filter (Z.leb lo) Ks)) by (rewrite E; left; reflexivity).
    apply filter_In in X as [X1 X2]. apply Z.leb_le in X2. specialize (H x X1). lia.
  - rewrite zseq_S. cbn [map rev]. destruct (IH (lo + 1)%Z) as [A B]; [intros K HK; specialize (H K HK); lia|].
    assert (T : at_least lo Ks = (number lo Ks + at_least (lo + 1) Ks)%nat).
    { unfold at_least, number. clear. induction Ks as [|K Ks IH]; [reflexivity|]. cbn [filter].
      destruct (Z.leb_spec lo K), (Z.eqb_spec lo K), (Z.leb_spec (lo + 1) K); cbn [length]; lia. }
    split.
    + rewrite prefix_app, rev_app_distr. cbn [prefix_sums rev app]. rewrite A. f_equal. rewrite Nat.add_0_l, total_rev, B. lia.
    + cbn [total_of fold_right]. fold (total_of (map (fun K => number K Ks) (zseq (lo + 1) n))). rewrite B. symmetry. exact T.
Qed.

Lemma width_nonzero (L : libm) j d : usual_width j d -> @neqb xr (F64 L) (@dec_val xr (F64 L) (width j d)) (@zero xr (F64 L)) = false.
Proof.
  intros W. pose proof (width_positive L j d W) as P. unfold FI6 in P. revert P. unfold zero. rewrite f_ofZ by (cbn; lia).
  destruct (@dec_val xr (F64 L) (width j d)) as [r| | |]; try (intros _; reflexivity). cbn [nltb neqb F64 xltb xeqb]. intros P. apply rlt_true in P. apply req_false. lra.
Qed.
(** the left edges are the centres less half a bin *)
Lemma get_fmd_left (L : libm) mags delta ws : @get_fmd xr (F64 L) mags delta ws LeftEdge
  = let? r := @get_fmd xr (F64 L) mags delta ws Center in
    Ok (map (fun b => @nsub xr (F64 L) b (@ndiv xr (F64 L) (@dec_val xr (F64 L) delta) (@two xr (F64 L)))) (fst (fst r)), snd (fst r), snd r).
Proof.
  unfold get_fmd. destruct (nleb _ _); [reflexivity|]. destruct (bin_to_precision (Some mags) delta) as [[|b0 bt]|e]; cbn [rbind]; try reflexivity.
  destruct (np_arange _ _ _) as [ar|e]; cbn [rbind]; [|reflexivity]. destruct (bin_to_precision (Some ar) delta) as [xb|e]; cbn [rbind]; [|reflexivity].
  destruct ws as [w|]; [destruct (_ =? _)%nat; reflexivity | reflexivity].
Qed.

(** C182: the cumulative counts are exact *)
Theorem C182_cum_fmd : forall (L : libm) j d (xs : list R), sums_in_some_order L -> usual_width j d -> xs <> [] -> (forall x, In x xs -> Rabs x <= 80) ->
  (Z.of_nat (length xs) <= 2 ^ 53)%Z ->
  exists Ks lo hi, Forall2 (fun x K => Rabs (x - IZR K * widthR j d) <= (1 / 2 + / 10000000) * widthR j d) xs Ks /\
    In lo Ks /\ In hi Ks /\ (forall K, In K Ks -> (lo <= K <= hi)%Z) /\
    let bins := zseq lo (Z.to_nat (hi - lo + 1)) in
    @get_cum_fmd xr (F64 L) (map Fin xs) (width j d) None Center
      = Ok (mags_at j d bins, map (fun K => Fin (INR (at_least K Ks))) bins, mags_at j d Ks) /\
    exists edges, @get_cum_fmd xr (F64 L) (map Fin xs) (width j d) None LeftEdge
      = Ok (map Fin edges, map (fun K => Fin (INR (at_least K Ks))) bins, mags_at j d Ks) /\
      Forall2 (fun e K => Rabs (e - (IZR K - 1 / 2) * widthR j d) <= / 1000000000000) edges bins.
Proof.
  intros L j d xs SO W NE B Hn. destruct (C175_fmd L j d xs SO W NE B Hn) as (Ks & lo & hi & F & I0 & I1 & R & E). cbv zeta in E.
  exists Ks, lo, hi. split; [exact F|]. split; [exact I0|]. split; [exact I1|]. split; [exact R|]. cbv zeta.
  assert (Hlh : (lo <= hi)%Z) by (apply (R hi); exact I1). set (n := Z.to_nat (hi - lo + 1)) in *.
  destruct (suffix_counts Ks n lo) as [S1 S2]. { intros K HK. specialize (R K HK). unfold n. lia. }
  assert (Tl : (Z.of_nat (total_of (rev (map (fun K => number K Ks) (zseq lo n)))) <= 2 ^ 53)%Z).
  { rewrite total_rev, S2. unfold at_least. pose proof (filter_le (Z.leb lo) Ks) as X. rewrite <- (F2_len _ _ _ F) in X. lia. }
  assert (C : rev (@np_cumsum xr (F64 L) (rev (map (fun K => Fin (INR (number K Ks))) (zseq lo n)))) = map (fun K => Fin (INR (at_least K Ks))) (zseq lo n)).
  { change (fun K => Fin (INR (number K Ks))) with (fun K => FN (number K Ks)). rewrite <- (map_map (fun K => number K Ks) FN), <- map_rev.
    rewrite np_cumsum_counts by exact Tl. rewrite <- map_rev, S1, map_map. reflexivity. }
  unfold get_cum_fmd. rewrite width_nonzero by exact W. split.
  - rewrite E. cbn [rbind]. rewrite C. reflexivity.
  - rewrite get_fmd_left, E. cbn [rbind fst snd]. rewrite C.
    assert (M : forall K, In K (zseq lo n) -> moderate j d K).
    { intros K HK. unfold zseq in HK. apply in_map_iff in HK as (i & <- & Hi). apply in_seq in Hi.
      assert (BK : forall K, In K Ks -> Rabs (IZR K * widthR j d) <= 86).
      { pose proof (W_bounds j d W) as WB. intros K HK. assert (X : exists x, In x xs /\ Rabs (x - IZR K * widthR j d) <= (1 / 2 + / 10000000) * widthR j d).
        { clear - F HK. induction F as [|x K' xs Ks H F IH]; [destruct HK|]. destruct HK as [->|HK]; [exists x; split; [left; reflexivity|exact H]|]. destruct (IH HK) as (y & Y & G). exists y. split; [right; exact Y|exact G]. }
        destruct X as (x & Hx & G). specialize (B x Hx). apply Rabs_le_inv in B, G. apply Rabs_le. lra. }
      pose proof (W_bounds j d W) as WB. pose proof (BK lo I0) as A0. pose proof (BK hi I1) as A1. apply Rabs_le_inv in A0, A1.
      assert (X : (lo <= lo + Z.of_nat i <= hi)%Z) by (unfold n in Hi; lia). destruct X as [X1 X2]. apply IZR_le in X1, X2. unfold moderate. apply Rabs_le. nra. }
    assert (Ed : exists edges, map (fun b => @nsub xr (F64 L) b (@ndiv xr (F64 L) (@dec_val xr (F64 L) (width j d)) (@two xr (F64 L)))) (mags_at j d (zseq lo n)) = map Fin edges /\
       Forall2 (fun e K => Rabs (e - (IZR K - 1 / 2) * widthR j d) <= / 1000000000000) edges (zseq lo n)).
    { clear - M W. induction (zseq lo n) as [|K l IH]; [exists []; split; [reflexivity|constructor]|].
      destruct IH as (edges & Ee & Fe); [intros; apply M; right; assumption|].
      destruct (threshold L j d W K (M K (or_introl eq_refl))) as (q & Eq & Hq). unfold FI6 in Eq.
      exists (q :: edges). cbn [mags_at map]. rewrite Eq. unfold mags_at in Ee. rewrite Ee. split; [reflexivity|]. constructor; [|exact Fe].
      replace ((IZR K - 1 / 2) * widthR j d) with (IZR K * widthR j d - widthR j d / 2) by lra. exact Hq. }
    destruct Ed as (edges & -> & Fe). exists edges. split; [reflexivity | exact Fe].
Qed.
Print Assumptions C182_cum_fmd.

(** ** unbinned data (fmd_bin = 0): every distinct value with the number of values not below it *)
Lemma zip_ones_R (L : libm) (xs : list R) (f : xr -> bool) :
  map snd (filter (fun p => f (fst p)) (zip (map Fin xs) (@unit_weights xr (F64 L) (map Fin xs)))) = repeat (Fin 1) (length (filter (fun x => f (Fin x)) xs)).
Proof.
  unfold unit_weights. assert (O : @one xr (F64 L) = Fin 1) by (unfold one; apply f_ofZ; cbn; lia). rewrite O.
  induction xs as [|k xs IH]; [reflexivity|]. cbn [map zip filter fst]. destruct (f (Fin k)); cbn [map snd length repeat]; [f_equal|]; exact IH.
Qed.
Lemma suffix_values xs : forall bins, StronglySorted Rlt bins -> (forall b x, In b bins -> In x xs -> b <= x -> In x bins) ->
  rev (prefix_sums 0 (rev (map (fun b => length (filter (fun x => req x b) xs)) bins))) = map (fun b => length (filter (fun x => rle b x) xs)) bins /\
  total_of (map (fun b => length (filter (fun x => req x b) xs)) bins) = match bins with [] => 0%nat | b :: _ => length (filter (fun x => rle b x) xs) end.
Proof.
  induction bins as [|b t IH]; intros Hs Hc; [split; reflexivity|]. inversion Hs; subst. rewrite Forall_forall in H2.
  destruct IH as [A B]; [assumption | |].
  { intros b' x Hb Hx Hle. destruct (Hc b' x (or_intror Hb) Hx Hle) as [<-|X]; [|exact X]. specialize (H2 b' Hb). lra. }
  assert (T : length (filter (fun x => rle b x) xs) = (length (filter (fun x => req x b) xs) + match t with [] => 0%nat | b' :: _ => length (filter (fun x => rle b' x) xs) end)%nat).
  { assert (C : forall x, In x xs -> rle b x = true -> x = b \/ In x t) by (intros x Hx Hr; apply rle_true in Hr; destruct (Hc b x (or_introl eq_refl) Hx Hr); auto).
    clear - C H1 H2. destruct t as [|b' t].
    - rewrite Nat.add_0_r. f_equal. apply filter_ext_in. intros x Hx. destruct (rle b x) eqn:E.
      + destruct (C x Hx E) as [->|[]]. symmetry. apply req_true. reflexivity.
      + symmetry. apply req_false. apply rle_false in E. lra.
    - inversion H1; subst. rewrite Forall_forall in H4. specialize (H2 b' (or_introl eq_refl)) as Hb.
      clear H1 H2 H3. induction xs as [|x xs IH]; [reflexivity|]. cbn [filter].
      assert (IH' := IH (fun y Hy => C y (or_intror Hy))). clear IH. specialize (C x (or_introl eq_refl)).
      destruct (rle b x) eqn:E.
      + destruct (C eq_refl) as [->|[<-|X]].
        * rewrite (proj2 (req_true b b) eq_refl), (proj2 (rle_false b' b)) by lra. cbn [length]. lia.
        * rewrite (proj2 (req_false b' b)) by lra. rewrite (proj2 (rle_true b' b')) by lra. cbn [length]. lia.
        * specialize (H4 x X). rewrite (proj2 (req_false x b)) by lra. rewrite (proj2 (rle_true b' x)) by lra. cbn [length]. lia.
      + apply rle_false in E. rewrite (proj2 (req_false x b)) by lra. rewrite (proj2 (rle_false b' x)) by lra. exact IH'. }
  split.
  - cbn [map rev]. rewrite prefix_app, rev_app_distr. cbn [prefix_sums rev app]. rewrite A. f_equal. rewrite Nat.add_0_l, total_rev, B. lia.
  - cbn [map total_of fold_right]. fold (total_of (map (fun b => length (filter (fun x => req x b) xs)) t)). rewrite B. symmetry. exact T.
Qed.
Theorem C182_unbinned : forall (L : libm) (xs : list R) pos, sums_in_some_order L -> (Z.of_nat (length xs) <= 2 ^ 53)%Z ->
  exists bins, StronglySorted Rlt bins /\ (forall b, In b bins <-> In b xs) /\
  @get_cum_fmd xr (F64 L) (map Fin xs) (mkdec 0 0) None pos = Ok (map Fin bins, map (fun b => Fin (INR (length (filter (fun y => rle b y) xs)))) bins, map Fin xs).
Proof.
  intros L xs pos SO Hn.
  destruct (C08_get_cum_fmd_unbinned xs (map (fun _ => 1) xs) (mkdec 0 0) pos) as (bins & Hs & Hb & E); [unfold decR; cbn; lra | apply map_length |].
  assert (U : np_unique (map Fin xs) = map Fin bins).
  { revert E. unfold get_cum_fmd. destruct (dec_val (mkdec 0 0) =? zero)%num eqn:Z0.
    - rewrite !map_length, Nat.eqb_refl. cbn [rbind]. intros E. apply Ok_inj in E. congruence.
    - exfalso. revert Z0. unfold dec_val, zero. cbn. intros Z0. apply req_false in Z0. lra. }
  exists bins. split; [exact Hs|]. split; [exact Hb|]. unfold get_cum_fmd.
  assert (Z0 : @neqb xr (F64 L) (@dec_val xr (F64 L) (mkdec 0 0)) (@zero xr (F64 L)) = true).
  { unfold dec_val, zero. cbn [expo mant Z.ltb Z.compare Z.pow Z.mul]. rewrite f_ofZ by (cbn; lia). cbn [neqb F64 xeqb]. apply req_true. reflexivity. }
  rewrite Z0. cbn [rbind].
  assert (U' : @np_unique xr (F64 L) (map Fin xs) = map Fin bins) by exact U. rewrite U'. do 2 f_equal. f_equal.
  assert (Ec : map (fun b => @nsum xr (F64 L) (map snd (filter (fun p => @neqb xr (F64 L) (fst p) b) (zip (map Fin xs) (@unit_weights xr (F64 L) (map Fin xs)))))) (map Fin bins)
     = map FN (map (fun b => length (filter (fun x => req x b) xs)) bins)).
  { rewrite !map_map. apply map_ext. intros b. rewrite (zip_ones_R L xs (fun v => @neqb xr (F64 L) v (Fin b))).
    apply sum_ones; [exact SO|]. pose proof (filter_le (fun x => @neqb xr (F64 L) (Fin x) (Fin b)) xs). lia. }
  rewrite Ec. destruct (suffix_values xs bins Hs) as [S1 S2]; [intros b x _ Hx _; apply Hb; exact Hx|].
  rewrite <- map_rev, np_cumsum_counts.
  - rewrite <- map_rev, S1, map_map. reflexivity.
  - rewrite total_rev, S2. destruct bins as [|b t]; [lia|]. pose proof (filter_le (fun x => rle b x) xs). lia.
Qed.
Print Assumptions C182_unbinned.
Example C182_example : sums_in_some_order left_lib /\ usual_width 1 1 /\ (forall x, In x [12 / 10; 3 / 10; 12 / 10] -> Rabs x <= 80) /\
  at_least 3 [12; 3; 12]%Z = 3%nat /\ at_least 4 [12; 3; 12]%Z = 2%nat.
Proof.
  split; [apply C175_example|]. split; [exact ex_width|]. split; [|split; reflexivity].
  intros x [<-|[<-|[<-|[]]]]; apply Rabs_le; lra.
Qed.
