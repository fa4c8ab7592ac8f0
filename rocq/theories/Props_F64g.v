(** * C225: the accuracy of the weighted b-value in IEEE double precision *)
From Coq Require Import ZArith List Bool Reals Lia Lra Psatz Permutation Sorted String.
From Flocq Require Import Core.
From Verif Require Import Base Num XR RList SortLib StateM Dict Binning_model BValue_model BValue_run Spec_BValue BValue_proofs Props_BValue Props_BValue2
  Openquake_model F64 Spec_F64 F64_proofs F64_test F64_select F64_fmd Props_F64 Props_F64b F64_acc F64_est F64_weights Props_F64c Catalog_model.
Import ListNotations.
Open Scope R_scope.

(** an event is an index k (its magnitude is the double of k * delta) and a weight.  The exact
    weighted mean of m - mc over the events, and the estimate made of it *)
Definition weighted_mean (delta : R) (kc : Z) (ps : list (Z * R)) : R :=
  Rsum (map (fun p => snd p * (IZR (fst p - kc) * delta)) ps) / Rsum (map snd ps).
Definition weighted_b (k : kind) (delta : R) (kc : Z) (ps : list (Z * R)) : R :=
  match k with Utsu => exact_utsu delta (weighted_mean delta kc ps) | _ => exact_classic delta (weighted_mean delta kc ps) end.

Lemma filter_pairs j d kc (events : list (Z * R)) (L : libm) : usual_width j d -> (forall p, In p events -> below8 j d (fst p)) -> moderate j d kc ->
  let a := mkargs (mags_at j d (map fst events)) (Fin (decimal j d kc)) (width j d) (Some (map (fun p => Fin (snd p)) events)) None None in
  let used := filter (fun p => Z.leb kc (fst p)) events in
  @f_mags xr (F64 L) a = mags_at j d (map fst used) /\ @f_weights xr (F64 L) a = Some (map (fun p => Fin (snd p)) used).
Proof.
  intros W B C a used. unfold f_mags, f_weights, keep, thr, a, used. cbn [a_mags a_mc a_delta a_weights option_map]. unfold mags_at.
  match goal with |- ?x = ?y /\ Some ?v = Some ?z => enough (G : x = y /\ v = z) by (destruct G as [-> ->]; split; reflexivity) end. clear - W B C.
  induction events as [|p ps IH]; [split; reflexivity|]. cbn [map filter compress].
  pose proof (select L j d W kc (fst p) C (below8_ok j d (fst p) (B p (or_introl eq_refl)))) as S. unfold FI6 in S. rewrite S.
  destruct (IH (fun q Hq => B q (or_intror Hq))) as [I1 I2].
  destruct (kc <=? fst p)%Z; cbn [map compress]; rewrite I1, I2; split; reflexivity.
Qed.

Theorem C225_weighted : forall (L : libm) srt k w j d events kc o,
  sums_in_some_order L -> log_accurate L -> usual_width j d ->
  (forall p, In p events -> below8 j d (fst p) /\ 0 <= snd p) -> moderate j d kc ->
  let delta := widthR j d in
  let used := filter (fun p => Z.leb kc (fst p)) events in
  (forall p, In p used -> usual_weight (snd p)) -> 0 < Rsum (map snd used) ->
  (Z.of_nat (List.length used) <= 2 ^ 40)%Z ->
  k = Classic /\ delta / 1099511627776 <= weighted_mean delta kc used \/ k = Utsu ->
  exists o' b,
    @calculate xr (F64 L) srt k w (mkargs (mags_at j d (map fst events)) (Fin (decimal j d kc)) (width j d) (Some (map (fun p => Fin (snd p)) events)) None None) o = (o', Ok (Fin b)) /\
    o_b o' = Some (Fin b) /\ accurate delta (2 * List.length used) b (weighted_b k delta kc used).
Proof.
  intros L srt k w j d events kc o HS HL W B C delta used Hu Hw Hn Hk.
  set (a := mkargs (mags_at j d (map fst events)) (Fin (decimal j d kc)) (width j d) (Some (map (fun p => Fin (snd p)) events)) None None).
  assert (B8 : forall i, In i (map fst events) -> below8 j d i) by (intros i Hi; apply in_map_iff in Hi; destruct Hi as (p & <- & Hp); apply B, Hp).
  assert (HU : forall p, In p used -> moderate j d (fst p) /\ (kc <= fst p)%Z /\ usual_weight (snd p)).
  { intros p Hi. split; [|split; [|apply Hu, Hi]]; apply filter_In in Hi; destruct Hi as (Hi & Hl); [apply below8_ok, B, Hi|apply Z.leb_le, Hl]. }
  destruct (filter_pairs j d kc events L W (fun p Hp => proj1 (B p Hp)) C) as [FM FW]. fold a used in FM, FW.
  assert (Hp : is_pos k = false) by (destruct Hk as [[-> _]| ->]; reflexivity).
  assert (NE : used <> []) by (intros X; rewrite X in Hw; unfold Rsum in Hw; cbn in Hw; lra).
  assert (R : exists u b, @run xr (F64 L) srt k a = Ok u /\ u_b u = Fin b /\ accurate delta (2 * List.length used) b (weighted_b k delta kc used)).
  { rewrite run_dmc by (intros [X|X]; destruct Hk as [[Y _]|Y]; congruence). rewrite check_binned by (apply (mags_at_ok L j d (map fst events)); auto).
    change (a_weights a) with (Some (map (fun p : Z * R => Fin (snd p)) events)). cbv iota beta.
    change (a_mags a) with (mags_at j d (map fst events)). unfold mags_at at 1. rewrite !map_length, Nat.eqb_refl. cbn [negb].
    assert (X : existsb (fun v => @nltb xr (F64 L) v (@zero xr (F64 L))) (map (fun p : Z * R => Fin (snd p)) events) = false).
    { apply not_true_is_false. intros X. apply existsb_exists in X. destruct X as (v & Hv & Hl). apply in_map_iff in Hv. destruct Hv as (p & <- & Hpp).
      assert (Z0 : @zero xr (F64 L) = Fin 0) by (exact (f_ofZ L 0 ltac:(cbn; lia))). rewrite Z0 in Hl. change (rlt (snd p) 0 = true) in Hl. apply rlt_true in Hl. pose proof (proj2 (B p Hpp)). lra. }
    rewrite X. cbn [rbind]. unfold f_times. rewrite Hp. cbn [rbind]. fold a. rewrite FM, FW.
    destruct used as [|p0 pt] eqn:EU; [congruence|]. rewrite <- EU in *.
    assert (EM : mags_at j d (map fst used) = Fin (decimal j d (fst p0)) :: mags_at j d (map fst pt)) by (rewrite EU; reflexivity). rewrite EM. cbv iota. rewrite <- EM.
    change (mags_at j d (map fst used)) with (at_index j d (map fst used)).
    unfold accurate. destruct Hk as [[-> HA]| ->]; cbn [run_est weighted_b a_mc a_delta a].
    - destruct (mle_weighted L j d W HS HL used kc HU C NE Hn Hw HA) as (b & Eb & Ab).
      unfold FI9 in Eb. rewrite Eb. cbn [rbind]. eexists _, b. split; [reflexivity|]. split; [reflexivity|exact Ab].
    - destruct (utsu_weighted L j d W HS HL used kc HU C NE Hn Hw) as (b & Eb & Ab).
      unfold FI9 in Eb. rewrite Eb. cbn [rbind]. eexists _, b. split; [reflexivity|]. split; [reflexivity|exact Ab]. }
  destruct R as (u & b & R & Eb & Ab). pose proof (@calculate_run xr (F64 L) srt k w a o) as CR. rewrite R in CR. destruct CR as (o' & E & F).
  destruct F as (_ & _ & _ & _ & _ & B1 & _). exists o', b. rewrite <- Eb. split; [exact E|]. split; [exact B1|exact Ab].
Qed.
Print Assumptions C225_weighted.

(** the catalogue with a column of weights *)
Theorem C225_catalogue : forall (L : libm) srt k w j d (c : @catalog xr) events kc,
  sums_in_some_order L -> log_accurate L -> usual_width j d ->
  dget (c_cols c) "magnitude" = Some (mags_at j d (map fst events)) -> dget (c_cols c) "weight" = Some (map (fun p => Fin (snd p)) events) ->
  (forall p, In p events -> below8 j d (fst p) /\ 0 <= snd p) -> moderate j d kc ->
  let delta := widthR j d in
  let used := filter (fun p => Z.leb kc (fst p)) events in
  (forall p, In p used -> usual_weight (snd p)) -> 0 < Rsum (map snd used) ->
  (Z.of_nat (List.length used) <= 2 ^ 40)%Z ->
  k = Classic /\ delta / 1099511627776 <= weighted_mean delta kc used \/ k = Utsu ->
  exists c' o' b, @cat_estimate_b xr (F64 L) srt w (Some (Fin (decimal j d kc))) (Some (width j d)) None k (mkkwb None None) c = (c', Ok o') /\
    c_b c' = Some (Fin b) /\ accurate delta (2 * List.length used) b (weighted_b k delta kc used).
Proof.
  intros L srt k w j d c events kc HS HL W Hm Hw0 B C delta used Hu Hw Hn Hk.
  destruct (C225_weighted L srt k w j d events kc new_obj HS HL W B C Hu Hw Hn Hk) as (o' & b & E & Eb & A).
  exists (set_b c (Some (Fin b))), o', b. split; [|split; [reflexivity|exact A]].
  unfold cat_estimate_b, with_magnitude. rewrite Hm.
  assert (Q : check_catalog_cols (b_args k) b_base_args (c_cols c) = []) by (destruct Hk as [[-> _]| ->]; reflexivity).
  rewrite Q, Hw0. destruct Hk as [[-> _]| ->]; cbn [kw_dmc kw_times given_b dget]; rewrite E; unfold b_value; rewrite Eb; reflexivity.
Qed.
Print Assumptions C225_catalogue.

(** a case: magnitudes 2.1, 2.4, 2.2, 1.9 with weights 0.5, 1.5, 0, 2 above mc = 2.1 *)
Example C225_example : exists L, sums_in_some_order L /\ log_accurate L /\ usual_width 1 1 /\
  let events := [(21%Z, 1/2); (24%Z, 3/2); (22%Z, 0); (19%Z, 2)] in
  let used := filter (fun p : Z * R => Z.leb 21 (fst p)) events in
  (forall p, In p events -> below8 1 1 (fst p) /\ 0 <= snd p) /\ moderate 1 1 21 /\ (forall p, In p used -> usual_weight (snd p)) /\ Rsum (map snd used) = 2 /\ weighted_mean (/ 10) 21 used = 9 / 40.
Proof.
  exists rounding_lib. destruct C176_example as [SO LA]. assert (W11 : widthR 1 1 = / 10) by (unfold widthR; cbn; lra).
  split; [exact SO|]. split; [exact LA|]. split; [exact ex_width|]. cbv zeta. cbn [filter Z.leb Z.compare Pos.compare Pos.compare_cont fst].
  split; [|split; [|split; [|split]]].
  - intros p [<-|[<-|[<-|[<-|[]]]]]; unfold below8; rewrite W11; cbn [fst snd]; (split; [rewrite Rabs_pos_eq; lra|lra]).
  - unfold moderate. rewrite W11, Rabs_pos_eq; lra.
  - intros p [<-|[<-|[<-|[]]]]; unfold usual_weight; cbn [snd]; lra.
  - unfold Rsum. cbn. lra.
  - unfold weighted_mean, Rsum. cbn. lra.
Qed.
