(** * Property theorems about binned magnitudes in IEEE double precision (C174, C175)

    The operations are those of double precision, [F64 L]; the magnitudes are the doubles of
    decimal multiples of the bin width.  What the code selects and counts is what exact
    arithmetic on the indices would select and count. *)
From Coq Require Import ZArith List Bool Reals Lia Lra Psatz Permutation Sorted.
From Flocq Require Import Core.
From Verif Require Import Base Num XR RList SortLib Binning_model BValue_model BValue_run Spec_BValue BValue_proofs Props_BValue Props_BValue2
  Spec_Positive Positive_proofs Props_Positive Openquake_model F64 Spec_F64 F64_proofs F64_test F64_select F64_fmd Props_F64.
Import ListNotations.
Open Scope R_scope.

(** the magnitudes with indices [ks]; below magnitude 8 *)
Definition mags_at (j : Z) (d : nat) (ks : list Z) : list xr := map (fun k => Fin (decimal j d k)) ks.
Definition below8 (j : Z) (d : nat) (k : Z) : Prop := Rabs (IZR k * widthR j d) < 8.
Lemma below8_ok j d k : below8 j d k -> moderate j d k.
Proof. unfold below8, moderate. intros H. lra. Qed.
Lemma mags_at_sample j d ks : mags_at j d ks = sample (map (fun k => Some (IZR k * widthR j d)) ks).
Proof. unfold mags_at, sample. rewrite map_map. reflexivity. Qed.
Lemma known_some (l : list R) : known (map Some l) = l.
Proof. induction l as [|a l IH]; [reflexivity|]. cbn [map known]. rewrite IH. reflexivity. Qed.
Lemma mags_at_ok (L : libm) j d ks a : usual_width j d -> (forall k, In k ks -> below8 j d k) -> a_mags a = mags_at j d ks -> a_delta a = width j d ->
  @binned_ok xr (F64 L) a.
Proof.
  intros W B Em Ed. unfold binned_ok. destruct ks as [|k0 kt]; [left; exact Em|right]. rewrite Em, Ed, mags_at_sample.
  rewrite <- (map_map (fun k => IZR k * widthR j d) Some). apply C172_grid_is_accepted; [exact W| | |].
  - rewrite known_some. discriminate.
  - unfold on_a_grid. rewrite known_some. intros r r' Hr Hr'. apply in_map_iff in Hr, Hr'. destruct Hr as (k & <- & _), Hr' as (k' & <- & _).
    exists (k - k')%Z. rewrite minus_IZR. ring.
  - rewrite known_some. intros r Hr. apply in_map_iff in Hr. destruct Hr as (k & <- & Hk). apply B, Hk.
Qed.

(** ** C174: the events the classic estimators use *)
Theorem C174_complete_events : forall (L : libm) srt k w j d ks kc o, usual_width j d -> k = Classic \/ k = Utsu ->
  (forall i, In i ks -> below8 j d i) -> moderate j d kc ->
  exists o' b idx used, @calculate xr (F64 L) srt k w (mkargs (mags_at j d ks) (Fin (decimal j d kc)) (width j d) None None None) o = (o', Ok b) /\
    o_idx o' = Some idx /\ o_mags o' = Some (mags_at j d used) /\ picks (fun i => (kc <= i)%Z) ks idx used.
Proof.
  intros L srt k w j d ks kc o W Hk B C. set (a := mkargs (mags_at j d ks) (Fin (decimal j d kc)) (width j d) None None None).
  assert (OK : exists u, @run xr (F64 L) srt k a = Ok u).
  { rewrite run_dmc by (intros [X|X]; destruct Hk; congruence). rewrite check_binned by (apply (mags_at_ok L j d ks); auto). cbn [a_weights a rbind].
    assert (Hp : is_pos k = false) by (destruct Hk as [->| ->]; reflexivity). unfold f_times. rewrite Hp. cbn [rbind].
    destruct (@f_mags xr (F64 L) a) as [|m ms] eqn:Em; [eexists; reflexivity|].
    destruct Hk as [->| ->]; cbn [run_est]; unfold mle_estimator, utsu_estimator, f_weights; cbn [a_weights a option_map np_average rbind]; eexists; reflexivity. }
  destruct OK as (u & R). pose proof (@calculate_run xr (F64 L) srt k w a o) as CR. rewrite R in CR. destruct CR as (o' & E & _).
  destruct (C09_used_events xr (F64 L) srt k w a o o' (u_b u) Hk E) as (idx & ms & Ei & Em & P & _).
  assert (X : forall i x, nth_error (mags_at j d ks) i = Some x -> exists q, nth_error ks i = Some q /\ x = Fin (decimal j d q)).
  { intros i x H. unfold mags_at in H. rewrite nth_error_map in H. destruct (nth_error ks i) as [q|]; [|discriminate]. injection H as <-. eauto. }
  destruct P as (P1 & P2 & P3). cbn [a_mags a_mc a_delta a] in P2, P3.
  assert (U : exists used, ms = mags_at j d used /\ Forall2 (fun i y => nth_error ks i = Some y) idx used).
  { clear - P3 X. induction P3 as [|i y idx ms H F IH]; [exists []; split; [reflexivity|constructor]|].
    destruct IH as (used & -> & G). destruct (X i y H) as (q & Q & ->). exists (q :: used). split; [reflexivity|]. constructor; assumption. }
  destruct U as (used & -> & U). exists o', (u_b u), idx, used. split; [exact E|]. split; [exact Ei|]. split; [exact Em|].
  split; [exact P1|]. split; [|exact U]. intros i. rewrite P2. split.
  - intros (x & Hx & G). destruct (X i x Hx) as (q & Q & ->). exists q. split; [exact Q|].
    pose proof (select L j d W kc q C (below8_ok j d q (B q (nth_error_In _ _ Q)))) as S. unfold FI6 in S. rewrite S in G. apply Z.leb_le, G.
  - intros (q & Q & G). exists (Fin (decimal j d q)). split; [unfold mags_at; rewrite nth_error_map, Q; reflexivity|].
    pose proof (select L j d W kc q C (below8_ok j d q (B q (nth_error_In _ _ Q)))) as S. unfold FI6 in S. rewrite S. apply Z.leb_le, G.
Qed.
Print Assumptions C174_complete_events.

(** the differences the positive estimators use: of consecutive events (b-positive), of an event
    and the first later one that is larger by dmc (b-more-positive); [kd] is the index of dmc *)
Lemma nth_mags j d ks i : (i < length ks)%nat -> nth i (mags_at j d ks) NaN = Fin (decimal j d (nth i ks 0%Z)).
Proof.
  intros H. unfold mags_at. rewrite (nth_indep _ NaN (Fin (decimal j d 0))) by (rewrite map_length; exact H). rewrite (map_nth (fun k => Fin (decimal j d k)) ks 0%Z). reflexivity.
Qed.
Definition in_order (ks : list Z) (kc : Z) (times : option (list xr)) (order : list nat) (L : libm) : Prop :=
  NoDup order /\ (forall i, In i order <-> (i < length ks)%nat /\ (kc <= nth i ks 0%Z)%Z) /\
  match times with None => StronglySorted lt order | Some ts => StronglySorted (@not_later xr (F64 L) ts) order end.
Lemma order_indices L j d ks kc times order : usual_width j d -> (forall i, In i ks -> below8 j d i) -> moderate j d kc ->
  @time_order xr (F64 L) (mags_at j d ks) (@nsub xr (F64 L) (Fin (decimal j d kc)) (@ndiv xr (F64 L) (@dec_val xr (F64 L) (width j d)) (@two xr (F64 L)))) times order ->
  in_order ks kc times order L.
Proof.
  intros W B C (N & I & S). split; [exact N|]. split; [|exact S]. intros i. rewrite I. split.
  - intros (m & Hm & G). unfold mags_at in Hm. rewrite nth_error_map in Hm. destruct (nth_error ks i) as [q|] eqn:Q; [|discriminate]. injection Hm as <-.
    pose proof (select L j d W kc q C (below8_ok j d q (B q (nth_error_In _ _ Q)))) as Sl. unfold FI6 in Sl. rewrite Sl in G. apply Z.leb_le in G.
    split; [apply nth_error_Some; congruence|]. rewrite (nth_error_nth ks i 0%Z Q). exact G.
  - intros (Hi & G). destruct (nth_error ks i) as [q|] eqn:Q; [|apply nth_error_None in Q; lia]. rewrite (nth_error_nth ks i 0%Z Q) in G.
    exists (Fin (decimal j d q)). split; [unfold mags_at; rewrite nth_error_map, Q; reflexivity|].
    pose proof (select L j d W kc q C (below8_ok j d q (B q (nth_error_In _ _ Q)))) as Sl. unfold FI6 in Sl. rewrite Sl. apply Z.leb_le, G.
Qed.
Lemma consecutive_in {A} (l : list A) p : In p (consecutive l) -> In (fst p) l /\ In (snd p) l.
Proof.
  unfold consecutive. intros H. destruct p as [x y]. pose proof (in_combine_l _ _ _ _ H). pose proof (in_combine_r _ _ _ _ H).
  split; [assumption|]. destruct l; [destruct H|]. right. assumption.
Qed.
Theorem C174_positive_differences : forall (L : libm) srt w j d ks kc kd times o o' b, usual_width j d -> @argsort_ok xr (F64 L) srt ->
  (forall i, In i ks -> below8 j d i) -> moderate j d kc -> moderate j d kd ->
  match times with None => True | Some ts => length ts = length ks end ->
  @calculate xr (F64 L) srt BPositive w (mkargs (mags_at j d ks) (Fin (decimal j d kc)) (width j d) None times (Some (Fin (decimal j d kd)))) o = (o', Ok b) ->
  exists order, in_order ks kc times order L /\
    let used := filter (fun p => (kd <=? nth (snd p) ks 0 - nth (fst p) ks 0)%Z) (consecutive order) in
    o_idx o' = Some (map snd used) /\ o_mags o' = Some (mags_at j d (map (fun p => (nth (snd p) ks 0 - nth (fst p) ks 0)%Z) used)).
Proof.
  intros L srt w j d ks kc kd times o o' b W Hs B C CdOpen Ht E.
  assert (TF : @times_fit xr (mkargs (mags_at j d ks) (Fin (decimal j d kc)) (width j d) None times (Some (Fin (decimal j d kd))))).
  { unfold times_fit. cbn. destruct times; [|exact I]. unfold mags_at. rewrite map_length. exact Ht. }
  pose proof (C18_used_differences xr (F64 L) srt w _ o o' b Hs TF E) as H. cbv zeta in H. cbn [a_mags a_mc a_delta a_dmc a_times a_weights] in H.
  destruct H as (order & To & Em & Ei & _). apply order_indices in To; [|exact W|exact B|exact C]. exists order. split; [exact To|]. cbv zeta.
  destruct To as (_ & I & _).
  assert (Q : forall p, In p (consecutive order) -> moderate j d (nth (fst p) ks 0%Z) /\ moderate j d (nth (snd p) ks 0%Z) /\
    nth (fst p) (mags_at j d ks) (@nnan xr (F64 L)) = Fin (decimal j d (nth (fst p) ks 0%Z)) /\ nth (snd p) (mags_at j d ks) (@nnan xr (F64 L)) = Fin (decimal j d (nth (snd p) ks 0%Z))).
  { intros p Hp. apply consecutive_in in Hp. destruct Hp as [H1 H2]. apply I in H1, H2. repeat split; try (apply below8_ok, B, nth_In; tauto); apply nth_mags; tauto. }
  assert (F : filter (fun p => @nleb xr (F64 L) (@nsub xr (F64 L) (Fin (decimal j d kd)) (@ndiv xr (F64 L) (@dec_val xr (F64 L) (width j d)) (@two xr (F64 L))))
       (@nsub xr (F64 L) (nth (snd p) (mags_at j d ks) (@nnan xr (F64 L))) (nth (fst p) (mags_at j d ks) (@nnan xr (F64 L))))) (consecutive order)
     = filter (fun p => (kd <=? nth (snd p) ks 0 - nth (fst p) ks 0)%Z) (consecutive order)).
  { apply filter_ext_in. intros p Hp. destruct (Q p Hp) as (M1 & M2 & -> & ->). exact (select_diff L j d W kd _ _ CdOpen M1 M2). }
  rewrite F in Em, Ei. split; [exact Ei|]. rewrite Em. f_equal.
  pose proof (width_positive L j d W) as P. unfold FI6 in P. rewrite P. unfold mags_at at 3. rewrite !map_map. apply map_ext_in. intros p Hp. apply filter_In in Hp.
  destruct (Q p (proj1 Hp)) as (M1 & M2 & -> & ->). exact (bin_diff L j d W _ _ M1 M2).
Qed.
Lemma next_pairs_in {A} (far : A -> A -> bool) l p : In p (next_pairs far l) -> In (fst p) l /\ In (snd p) l.
Proof.
  induction l as [|i t IH]; [intros []|]. cbn [next_pairs]. destruct (find (far i) t) as [q|] eqn:F.
  - intros [<-|H]; cbn [fst snd]; [split; [left; reflexivity|right; apply find_some in F; tauto]|]. apply IH in H. split; right; tauto.
  - intros H. apply IH in H. split; right; tauto.
Qed.
Lemma find_ext_in {A} (f g : A -> bool) l : (forall x, In x l -> f x = g x) -> find f l = find g l.
Proof. induction l as [|a l IH]; intros H; [reflexivity|]. cbn [find]. rewrite (H a) by (left; reflexivity). rewrite IH by (intros x Hx; apply H; right; exact Hx). reflexivity. Qed.
Lemma next_pairs_ext {A} (f g : A -> A -> bool) l : (forall x y, In x l -> In y l -> f x y = g x y) -> next_pairs f l = next_pairs g l.
Proof.
  induction l as [|i t IH]; intros H; [reflexivity|]. cbn [next_pairs].
  rewrite (find_ext_in (f i) (g i)) by (intros x Hx; apply H; [left; reflexivity|right; exact Hx]). rewrite IH by (intros x y Hx Hy; apply H; right; assumption). reflexivity.
Qed.
Theorem C174_more_positive_differences : forall (L : libm) srt w j d ks kc kd times o o' b, usual_width j d -> @argsort_ok xr (F64 L) srt ->
  (forall i, In i ks -> below8 j d i) -> moderate j d kc -> moderate j d kd ->
  match times with None => True | Some ts => length ts = length ks end ->
  @calculate xr (F64 L) srt BMorePositive w (mkargs (mags_at j d ks) (Fin (decimal j d kc)) (width j d) None times (Some (Fin (decimal j d kd)))) o = (o', Ok b) ->
  exists order, in_order ks kc times order L /\
    let used := next_pairs (fun i i' => (kd <=? nth i' ks 0 - nth i ks 0)%Z) order in
    o_idx o' = Some (map snd used) /\ o_mags o' = Some (mags_at j d (map (fun p => (nth (snd p) ks 0 - nth (fst p) ks 0)%Z) used)).
Proof.
  intros L srt w j d ks kc kd times o o' b W Hs B C CdOpen Ht E.
  assert (TF : @times_fit xr (mkargs (mags_at j d ks) (Fin (decimal j d kc)) (width j d) None times (Some (Fin (decimal j d kd))))).
  { unfold times_fit. cbn. destruct times; [|exact I]. unfold mags_at. rewrite map_length. exact Ht. }
  pose proof (C19_used_pairs xr (F64 L) srt w _ o o' b Hs TF E) as H. cbv zeta in H. cbn [a_mags a_mc a_delta a_dmc a_times a_weights] in H.
  destruct H as (order & To & Em & Ei & _). apply order_indices in To; [|exact W|exact B|exact C]. exists order. split; [exact To|]. cbv zeta.
  destruct To as (_ & I & _).
  assert (Q : forall i, In i order -> moderate j d (nth i ks 0%Z) /\ nth i (mags_at j d ks) (@nnan xr (F64 L)) = Fin (decimal j d (nth i ks 0%Z))).
  { intros i Hi. apply I in Hi. split; [apply below8_ok, B, nth_In; tauto|apply nth_mags; tauto]. }
  rewrite (next_pairs_ext _ (fun i i' => (kd <=? nth i' ks 0 - nth i ks 0)%Z)) in Em, Ei.
  2,3: intros i i' Hi Hi'; destruct (Q i Hi) as (M1 & ->); destruct (Q i' Hi') as (M2 & ->); exact (select_diff L j d W kd _ _ CdOpen M1 M2).
  split; [exact Ei|]. rewrite Em. f_equal. unfold mags_at at 3. rewrite !map_map. apply map_ext_in. intros p Hp. apply next_pairs_in in Hp.
  destruct (Q _ (proj1 Hp)) as (M1 & ->). destruct (Q _ (proj2 Hp)) as (M2 & ->). exact (bin_diff L j d W _ _ M1 M2).
Qed.
Print Assumptions C174_positive_differences.
Print Assumptions C174_more_positive_differences.
Example C174_example : usual_width 1 1 /\ moderate 1 1 13 /\ (forall i, In i [12; 13; 79; -5; 40]%Z -> below8 1 1 i) /\ picks (fun i => (13 <= i)%Z) [12; 13; 79; -5; 40]%Z [1; 2; 4]%nat [13; 79; 40]%Z.
Proof.
  split; [exact ex_width|]. split; [unfold moderate; rewrite w11; apply Rabs_le; lra|]. split.
  - intros i Hi. unfold below8. rewrite w11. cbn [In] in Hi. destruct Hi as [<-|[<-|[<-|[<-|[<-|[]]]]]]; apply Rabs_lt; lra.
  - split; [repeat constructor|]. split; [|repeat constructor]. intros i. cbn [In].
    split.
    + intros [<-|[<-|[<-|[]]]]; cbn [nth_error]; eexists; (split; [reflexivity|lia]).
    + intros (x & E & G). destruct i as [|[|[|[|[|i]]]]]; cbn [nth_error] in E; try (injection E as <-); try lia; try tauto. destruct i; discriminate E.
Qed.

Lemma F2_len {A B} (R : A -> B -> Prop) l l' : Forall2 R l l' -> length l = length l'.
Proof. intros H. induction H; [reflexivity|]. cbn [length]. congruence. Qed.
(** ** C175: the frequency-magnitude distribution *)
Theorem C175_fmd : forall (L : libm) j d (xs : list R), sums_in_some_order L -> usual_width j d -> xs <> [] -> (forall x, In x xs -> Rabs x <= 80) ->
  (Z.of_nat (length xs) <= 2 ^ 53)%Z ->
  exists Ks lo hi, Forall2 (fun x K => Rabs (x - IZR K * widthR j d) <= (1 / 2 + / 10000000) * widthR j d) xs Ks /\
    In lo Ks /\ In hi Ks /\ (forall K, In K Ks -> (lo <= K <= hi)%Z) /\
    let bins := zseq lo (Z.to_nat (hi - lo + 1)) in
    @get_fmd xr (F64 L) (map Fin xs) (width j d) None Center
      = Ok (mags_at j d bins, map (fun K => Fin (INR (number K Ks))) bins, mags_at j d Ks).
Proof.
  intros L j d xs SO W NE B Hn. destruct (C170_result_is_the_decimal L j d xs W) as (Ks & EB & F). { intros x Hx. pose proof (B x Hx). lra. }
  pose proof (W_bounds j d W) as WB.
  assert (BK : forall K, In K Ks -> Rabs (IZR K * widthR j d) <= 86).
  { intros K HK. assert (X : exists x, In x xs /\ Rabs (x - IZR K * widthR j d) <= (1 / 2 + / 10000000) * widthR j d).
    { clear - F HK. induction F as [|x K' xs Ks H F IH]; [destruct HK|]. destruct HK as [->|HK]; [exists x; split; [left; reflexivity|exact H]|]. destruct (IH HK) as (y & Y & G). exists y. split; [right; exact Y|exact G]. }
    destruct X as (x & Hx & G). specialize (B x Hx). apply Rabs_le_inv in B, G. apply Rabs_le. lra. }
  destruct Ks as [|K0 Kt]; [inversion F; subst; congruence|].
  exists (K0 :: Kt), (zmin K0 Kt), (zmax K0 Kt). split; [exact F|].
  pose proof (zmin_in Kt K0) as I0. pose proof (zmax_in Kt K0) as I1. split; [exact I0|]. split; [exact I1|].
  assert (R : forall K, In K (K0 :: Kt) -> (zmin K0 Kt <= K <= zmax K0 Kt)%Z) by (intros K [->|H]; split; [apply zmin_le|apply zmax_ge|apply zmin_le|apply zmax_ge]; auto).
  split; [exact R|]. cbv zeta. set (lo := zmin K0 Kt) in *. set (hi := zmax K0 Kt) in *.
  assert (OK : forall K, In K (K0 :: Kt) -> moderate j d K) by (intros K HK; unfold moderate; specialize (BK K HK); lra).
  unfold get_fmd.
  assert (Z : @nleb xr (F64 L) (@dec_val xr (F64 L) (width j d)) (@zero xr (F64 L)) = false).
  { pose proof (D_bounds j d W). unfold zero. rewrite f_dec, f_ofZ by (exact W || (cbn; lia)). apply rle_false. lra. }
  rewrite Z, EB. cbn [rbind map].
  pose proof (amin_D L j d W K0 Kt) as A0. pose proof (amax_D L j d W K0 Kt) as A1. unfold FI7 in A0, A1. rewrite A0, A1. fold lo hi.
  destruct (arange_bins L j d W lo hi (OK lo I0) (OK hi I1)) as (ar & EA & EM). { pose proof (R lo I0). lia. }
  unfold FI7 in EA, EM. rewrite EA. cbn [rbind]. unfold bin_to_precision at 1.
  pose proof (not_below_eps L j d W) as X. unfold FI3 in X. rewrite X. cbn [rbind]. rewrite EM.
  assert (Q : Z.to_nat (hi - lo + 2) = S (Z.to_nat (hi - lo + 1))) by (pose proof (R lo I0); lia). rewrite Q.
  assert (RL : removelast (map (fun k => Fin (decimal j d k)) (zseq lo (S (Z.to_nat (hi - lo + 1))))) = mags_at j d (zseq lo (Z.to_nat (hi - lo + 1)))).
  { unfold mags_at. rewrite <- (zseq_removelast lo (Z.to_nat (hi - lo + 1))). generalize (zseq lo (S (Z.to_nat (hi - lo + 1)))). intros l.
    induction l as [|a [|b l] IH]; [reflexivity|reflexivity|]. cbn [map removelast] in *. f_equal. exact IH. }
  rewrite RL. f_equal. f_equal. f_equal.
  pose proof (histogram_D L j d W (K0 :: Kt) lo (Z.to_nat (hi - lo + 1)) SO) as HH. unfold FI7 in HH. apply HH.
  - rewrite <- (F2_len _ _ _ F). exact Hn.
  - exact OK.
  - intros K HK. unfold zseq in HK. apply in_map_iff in HK. destruct HK as (i & <- & Hi). apply in_seq in Hi.
    assert (G : (lo <= lo + Z.of_nat i <= hi + 1)%Z) by (pose proof (R lo I0); lia). destruct G as [G1 G2]. apply IZR_le in G1, G2. rewrite (plus_IZR hi) in G2.
    pose proof (BK lo I0) as B0. pose proof (BK hi I1) as B1. apply Rabs_le_inv in B0, B1. unfold moderate. apply Rabs_le. nra.
Qed.
(** no event is lost and none is counted twice *)
Lemma count_all : forall lo n Ks, (forall K, In K Ks -> (lo <= K < lo + Z.of_nat n)%Z) ->
  fold_right Nat.add 0%nat (map (fun K => number K Ks) (zseq lo n)) = length Ks.
Proof.
  intros lo n Ks. revert lo Ks. induction n as [|n IH]; intros lo Ks H.
  - destruct Ks as [|K Ks]; [reflexivity|]. specialize (H K (or_introl eq_refl)). lia.
  - rewrite zseq_S. cbn [map fold_right].
    assert (E : forall K, In K (zseq (lo + 1) n) -> number K Ks = number K (filter (fun k => negb (Z.eqb lo k)) Ks)).
    { intros K HK. unfold zseq in HK. apply in_map_iff in HK. destruct HK as (i & <- & _). unfold number. f_equal. clear.
      induction Ks as [|k Ks IHk]; [reflexivity|]. cbn [filter]. destruct (Z.eqb_spec lo k) as [<-|N]; cbn [negb].
      - destruct (Z.eqb_spec (lo + 1 + Z.of_nat i) lo); [lia|]. exact IHk.
      - cbn [filter]. destruct (Z.eqb (lo + 1 + Z.of_nat i) k); [f_equal|]; exact IHk. }
    rewrite (map_ext_in _ _ _ E). rewrite IH.
    + unfold number. clear. induction Ks as [|k Ks IHk]; [reflexivity|]. cbn [filter]. destruct (Z.eqb lo k); cbn [negb length]; lia.
    + intros K HK. apply filter_In in HK. destruct HK as [HK N]. specialize (H K HK). destruct (Z.eqb_spec lo K); [discriminate|]. lia.
Qed.
Theorem C175_every_event_counted_once : forall (L : libm) j d (xs : list R) edges counts mags, sums_in_some_order L -> usual_width j d -> xs <> [] -> (forall x, In x xs -> Rabs x <= 80) ->
  (Z.of_nat (length xs) <= 2 ^ 53)%Z -> @get_fmd xr (F64 L) (map Fin xs) (width j d) None Center = Ok (edges, counts, mags) ->
  exists ns, counts = map (fun n => Fin (INR n)) ns /\ fold_right Nat.add 0%nat ns = length xs.
Proof.
  intros L j d xs edges counts mags SO W NE B Hn E. destruct (C175_fmd L j d xs SO W NE B Hn) as (Ks & lo & hi & F & I0 & I1 & R & E'). cbv zeta in E'.
  rewrite E' in E. apply Ok_inj in E. apply pair_equal_spec in E. destruct E as [E _]. apply pair_equal_spec in E. destruct E as [_ E].
  exists (map (fun K => number K Ks) (zseq lo (Z.to_nat (hi - lo + 1)))). split; [rewrite map_map; symmetry; exact E|].
  rewrite (F2_len _ _ _ F). apply count_all. intros K HK. pose proof (R K HK). pose proof (R lo I0). lia.
Qed.
Print Assumptions C175_fmd.
Print Assumptions C175_every_event_counted_once.
(** a library that adds from left to right satisfies the hypothesis on np.sum *)
Definition left_sum (l : list xr) : xr := match l with [] => Fin 0 | x :: t => fold_left (fun a b => fix64 (xadd a b)) t x end.
Definition left_lib : libm := Build_libm left_sum (fun x => x) (fun x => x) (fun x => x) (fun x => x) (fun x => x) (fun x => x) (fun x _ => x).
Example C175_example : sums_in_some_order left_lib /\ usual_width 1 1 /\ (forall x, In x [nearest_double (12 / 10); nearest_double (3 / 10)] -> Rabs x <= 80).
Proof.
  split; [|split; [exact ex_width|]].
  - split; [reflexivity|]. intros [|x t] N; [congruence|]. cbn [l_sum left_lib left_sum]. clear N.
    assert (G : forall l t0, exists t', Permutation (leaves t') (leaves t0 ++ l) /\ fold_left (fun a b => fix64 (xadd a b)) l (total t0) = total t').
    { induction l as [|a l IH]; intros t0; [exists t0; rewrite app_nil_r; split; [apply Permutation_refl|reflexivity]|].
      destruct (IH (Node t0 (Leaf a))) as (t' & P & E). exists t'. split; [|exact E]. cbn [leaves] in P. rewrite <- app_assoc in P. exact P. }
    destruct (G t (Leaf x)) as (t' & P & E). exists t'. split; [exact P|exact E].
  - intros x Hx. assert (B : forall v, Rabs v <= 10 -> Rabs (rnd v) <= 80).
    { intros v Hv. pose proof (rnd_err_le v 10 Hv) as E. unfold u, h in E. apply Rabs_le_inv in E, Hv. apply Rabs_le. lra. }
    destruct Hx as [<-|[<-|[]]]; apply B, Rabs_le; lra.
Qed.
