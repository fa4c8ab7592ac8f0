(** * Conversion from and to OpenQuake catalogues (C158-C164) *)
From Coq Require Import ZArith List Bool String Reals Lia Lra.
From Flocq Require Import Core.
From Verif Require Import Base Spec_Utils Utils_model Utils_proofs Spec_Openquake Openquake_model Openquake_proofs.
Import ListNotations.
Open Scope Z_scope.

Lemma in_bounds_spec us : representable us -> in_bounds us = true.
Proof. unfold representable, in_bounds. intros H. cbv zeta. apply andb_true_iff; split; apply Z.ltb_lt; lia. Qed.
Lemma in_bounds_inv us : in_bounds us = true -> representable us.
Proof. unfold representable, in_bounds. cbv zeta. intros H. apply andb_true_iff in H as [A B]. apply Z.ltb_lt in A. apply Z.ltb_lt in B. lia. Qed.
Lemma is_date_spec y mo d : valid_date y mo d -> is_date y mo d = true.
Proof.
  intros [Hy (n & Hn & Hd)]. destruct (days_in_month_spec _ _ _ Hn) as [E Hm]. unfold is_date. rewrite E.
  repeat (apply andb_true_iff; split); apply Z.leb_le; lia.
Qed.
Lemma is_date_inv y mo d : is_date y mo d = true -> valid_date y mo d.
Proof.
  unfold is_date. intros H. repeat (apply andb_true_iff in H as [H ?]). repeat match goal with X : (_ <=? _) = true |- _ => apply Z.leb_le in X end.
  split; [lia|]. exists (days_in_month y mo). split; [apply month_length_ex; lia|lia].
Qed.

(** the time of day *)
Lemma day_parts r : 0 <= r < 86400000000 ->
  0 <= r / 3600000000 <= 23 /\ 0 <= r / 60000000 mod 60 <= 59 /\ 0 <= r / 1000000 mod 60 <= 59 /\ 0 <= r mod 1000000 <= 999999 /\
  ((r / 3600000000) * 60 + r / 60000000 mod 60) * 60000000 + (r / 1000000 mod 60) * 1000000 + r mod 1000000 = r.
Proof.
  intros H. assert (E1 : r / 60000000 = r / 1000000 / 60) by (rewrite Z.div_div by lia; reflexivity).
  assert (E2 : r / 3600000000 = r / 1000000 / 60 / 60) by (rewrite !Z.div_div by lia; reflexivity). rewrite E1, E2.
  Z.to_euclidean_division_equations. lia.
Qed.
Lemma year_bound y mo d N : 1 <= d -> 1 <= mo <= 12 -> ordinal y mo d <= days_before_year N -> 1 <= N -> y < N.
Proof.
  intros Hd Hm H HN. unfold ordinal in H.
  assert (0 <= days_before_month y (Z.to_nat (mo - 1))).
  { generalize (Z.to_nat (mo - 1)). intros n. induction n as [|n IH]; cbn [days_before_month]; [lia|]. pose proof (dim_pos y (Z.of_nat (S n))). lia. }
  destruct (Z.lt_ge_cases y N) as [L|L]; [exact L|exfalso].
  assert (days_before_year N <= days_before_year y). { unfold days_before_year. Z.to_euclidean_division_equations. lia. }
  lia.
Qed.

Section to_time.
  Variable t : Z.
  Hypothesis T0 : 0 <= t.
  Let us := t / 1000.
  Hypothesis T1 : us / 86400000000 < days_before_year 10000.
  Let o := to_time t.
  Lemma us0 : 0 <= us. Proof. apply Z.div_pos; lia. Qed.
  Lemma to_time_parts : exists y mo d h mi s u,
    o = mkoq y mo d h mi (rnd (IZR s + rnd (IZR u / 1000000))) /\ valid_date y mo d /\ 0 <= h <= 23 /\ 0 <= mi <= 59 /\
    0 <= s <= 59 /\ 0 <= u <= 999999 /\ microseconds y mo d h mi s u = us /\ microseconds y mo d 0 0 0 0 = midnight us.
  Proof.
    unfold o, to_time. fold us. pose proof us0 as U0.
    assert (D0 : 0 <= us / 86400000000) by (apply Z.div_pos; lia).
    destruct (date_of_spec _ D0) as [Ok Ord]. destruct (date_of (us / 86400000000)) as [[y mo] d].
    pose proof (Z.mod_pos_bound us 86400000000 ltac:(lia)) as B. destruct (day_parts _ B) as (H1 & H2 & H3 & H4 & H5).
    set (r := us mod 86400000000) in *. exists y, mo, d, (r / 3600000000), (r / 60000000 mod 60), (r / 1000000 mod 60), (r mod 1000000).
    unfold ord in Ord. unfold ok_date in Ok. destruct Ok as (Y & M & D).
    split; [reflexivity|]. split.
    { split.
      - split; [lia|]. assert (y < 10000); [|lia]. apply (year_bound y mo d 10000); lia.
      - exists (days_in_month y mo). split; [apply month_length_ex; lia|lia]. }
    do 4 (split; [assumption|]). split.
    - unfold microseconds. rewrite Ord. pose proof (Z.div_mod us 86400000000 ltac:(lia)) as E. fold r in E.
      replace (us / 86400000000 + 1 - 1) with (us / 86400000000) by lia.
      remember (us / 86400000000) as q. lia.
    - unfold microseconds, midnight. rewrite Ord. lia.
  Qed.
End to_time.

(** ** C158 *)
(** the times of the OpenQuake catalogue are the times of the catalogue *)
Theorem C158_exported_times t : 0 <= t -> t / 1000 / 86400000000 < days_before_year 10000 ->
  oq_valid (to_time t) /\ (Rabs (oq_value (to_time t) - IZR (t / 1000)) <= / 1000000)%R.
Proof.
  intros T0 T1. destruct (to_time_parts t T0 T1) as (y & mo & d & h & mi & s & u & E & V & H1 & H2 & H3 & H4 & H5 & H6).
  rewrite E. destruct (second_back s u H3 H4) as (W & M & B). set (x := rnd _) in *.
  assert (IZR 0 <= IZR s <= IZR 59)%R by (split; apply IZR_le; lia).
  split.
  - unfold oq_valid; cbn [oq_year oq_month oq_day oq_hour oq_minute oq_second]. do 3 (split; [assumption|]). lra.
  - unfold oq_value; cbn [oq_year oq_month oq_day oq_hour oq_minute oq_second].
    rewrite <- H5. unfold microseconds. rewrite !plus_IZR, !mult_IZR, !plus_IZR, !mult_IZR.
    assert (X : (Rabs (x * 1000000 - (IZR s * 1000000 + IZR u)) <= / 1000000)%R).
    { unfold x. set (f := rnd (IZR u / 1000000)).
      assert (UU : (0 <= IZR u <= 999999)%R) by (split; apply IZR_le; lia).
      assert (F1 : (Rabs (f - IZR u / 1000000) <= 1 * / 9007199254740992 + / 1152921504606846976)%R). { apply rnd_error. rewrite Rabs_pos_eq; lra. }
      apply Rabs_le_inv in F1.
      assert (X1 : (Rabs (rnd (IZR s + f) - (IZR s + f)) <= 61 * / 9007199254740992 + / 1152921504606846976)%R).
      { apply rnd_error. apply Rabs_le. lra. }
      apply Rabs_le_inv in X1. apply Rabs_le. lra. }
    match goal with |- (Rabs ?e <= _)%R => replace e with (x * 1000000 - (IZR s * 1000000 + IZR u))%R by ring end. exact X.
Qed.
Lemma representable_year us : 0 <= us -> representable us -> us / 86400000000 < days_before_year 10000.
Proof. unfold representable. intros H0 H. assert (us < 86400000000 * 1000000) by lia. change (days_before_year 10000) with 3652059. apply Z.div_lt_upper_bound; lia. Qed.
Lemma assemble_back t : 0 <= t -> representable (t / 1000) -> representable (midnight (t / 1000)) -> assemble (to_time t) = Some (t / 1000).
Proof.
  intros T0 R1 R2. destruct (to_time_parts t T0) as (y & mo & d & h & mi & s & u & E & V & H1 & H2 & H3 & H4 & H5 & H6).
  { apply representable_year; [apply Z.div_pos; lia|exact R1]. }
  rewrite E. destruct (second_back s u H3 H4) as (W & M & B). unfold assemble, oq_date. cbn [oq_year oq_month oq_day oq_hour oq_minute oq_second].
  rewrite W, M, H5, H6, (is_date_spec _ _ _ V), (in_bounds_spec _ R1), (in_bounds_spec _ R2). reflexivity.
Qed.
Lemma all_some_map {A B C} (f : B -> option C) (g : A -> B) (h : A -> C) l : (forall x, In x l -> f (g x) = Some (h x)) -> all_some f (map g l) = Some (map h l).
Proof.
  induction l as [|x l IH]; intros H; [reflexivity|]. cbn [map all_some]. rewrite (H x) by (left; reflexivity). rewrite IH; [reflexivity|].
  intros y Hy. apply H. right. exact Hy.
Qed.
(** the catalogue that comes back has the same times to the microsecond *)
Theorem C158_round_trip all_numbers ts :
  Forall (fun t => 0 <= t /\ representable (t / 1000) /\ representable (midnight (t / 1000))) ts ->
  from_times all_numbers (map to_time ts) = Ok (map (fun t => t / 1000) ts).
Proof.
  intros H. unfold from_times. rewrite (all_some_map assemble to_time (fun t => t / 1000)); [reflexivity|].
  intros t Ht. rewrite Forall_forall in H. destruct (H t Ht) as (A & B & C). apply assemble_back; assumption.
Qed.
(** the hypothesis: 2020-11-30 12:30:59.999900 *)
Example C158_case : let t := microseconds 2020 11 30 12 30 59 999900 * 1000 + 17 in
  0 <= t /\ representable (t / 1000) /\ representable (midnight (t / 1000)) /\ t / 1000 = microseconds 2020 11 30 12 30 59 999900.
Proof. cbv zeta. unfold representable. repeat split; vm_compute; congruence. Qed.

(** ** C159 *)
(** times given with any number of decimals are kept to half a microsecond, carrying into the next second *)
Definition convertible (o : oq_time) : Prop :=
  valid_date (oq_year o) (oq_month o) (oq_day o) /\ (0 <= oq_second o)%R /\ representable (oq_date o) /\
  (- 2 ^ 63 < (oq_value o - 1 - 719162 * 86400000000) * 1000 /\ (oq_value o + 1 - 719162 * 86400000000) * 1000 < 2 ^ 63)%R.
Lemma assemble_near o : convertible o -> exists us, assemble o = Some us /\ (Rabs (IZR us - oq_value o) <= / 2 + / 8000000000)%R.
Proof.
  intros (V & S0 & R1 & R2). destruct (micro_near (oq_second o) S0) as [MB MN]. unfold assemble.
  set (us := microseconds _ _ _ _ _ _ _).
  assert (E : (Rabs (IZR us - oq_value o) <= / 2 + / 8000000000)%R).
  { unfold us, oq_value, microseconds. rewrite !plus_IZR, !mult_IZR, !plus_IZR, !mult_IZR.
    match goal with |- (Rabs ?e <= _)%R => replace e with (IZR (whole_of (oq_second o)) * 1000000 + IZR (micro_of (oq_second o)) - oq_second o * 1000000)%R by ring end. exact MN. }
  exists us. split; [|exact E]. rewrite (is_date_spec _ _ _ V), (in_bounds_spec _ R1), in_bounds_spec; [reflexivity|].
  unfold representable. apply Rabs_le_inv in E.
  assert (P : (2 ^ 63 = IZR (2 ^ 63))%R) by (cbn; lra). rewrite P in R2.
  split; apply lt_IZR; rewrite ?opp_IZR, mult_IZR, minus_IZR, mult_IZR; lra.
Qed.
Theorem C159_imported_times all_numbers rows : Forall convertible rows ->
  exists l, from_times all_numbers rows = Ok l /\ Forall2 (fun o us => Rabs (IZR us - oq_value o) <= / 2 + / 8000000000)%R rows l.
Proof.
  intros H. assert (X : exists l, all_some assemble rows = Some l /\ Forall2 (fun o us => Rabs (IZR us - oq_value o) <= / 2 + / 8000000000)%R rows l).
  { induction H as [|o rows Ho _ (l & E & IH)]; [exists []; split; [reflexivity|constructor]|].
    destruct (assemble_near o Ho) as (us & Eu & Hu). exists (us :: l). cbn [all_some]. rewrite Eu, E. split; [reflexivity|constructor; assumption]. }
  destruct X as (l & E & F). exists l. unfold from_times. rewrite E. split; [reflexivity|exact F].
Qed.
(** 59.9999999 s become the start of the next minute *)
Example C159_case : let o := mkoq 2020 12 31 23 59 59.9999999 in convertible o /\
  exists us, from_times true [o] = Ok [us] /\ us = microseconds 2021 1 1 0 0 0 0.
Proof.
  intros o.
  assert (V : valid_date 2020 12 31). { split; [lia|]. exists 31. split; [right; right; split; [cbn; tauto|reflexivity]|lia]. }
  assert (C : convertible o).
  { split; [exact V|]. split; [cbn; lra|]. split; [split; vm_compute; reflexivity|].
    unfold oq_value, o; cbn [oq_year oq_month oq_day oq_hour oq_minute oq_second].
    match goal with |- context [microseconds ?a ?b ?c ?d ?e ?f ?g] => let v := eval vm_compute in (microseconds a b c d e f g) in change (microseconds a b c d e f g) with v end. lra. }
  split; [exact C|]. destruct (C159_imported_times true [o]) as (l & E & F); [constructor; [exact C|constructor]|].
  inversion F as [|? us ? l' N F']; subst. inversion F'; subst. exists us. split; [exact E|].
  assert (D : (Rabs (IZR us - IZR (microseconds 2021 1 1 0 0 0 0)) < 1)%R).
  { unfold oq_value, o in N; cbn [oq_year oq_month oq_day oq_hour oq_minute oq_second] in N.
    match type of N with context [microseconds ?a ?b ?c ?d ?e ?f ?g] => let v := eval vm_compute in (microseconds a b c d e f g) in change (microseconds a b c d e f g) with v in N end.
    match goal with |- context [microseconds ?a ?b ?c ?d ?e ?f ?g] => let v := eval vm_compute in (microseconds a b c d e f g) in change (microseconds a b c d e f g) with v end.
    apply Rabs_le_inv in N. apply Rabs_lt. lra. }
  rewrite <- minus_IZR, <- abs_IZR in D. apply lt_IZR in D. lia.
Qed.

(** ** C160: one event out of the range of pandas, and every event loses its fraction of a second *)
Lemma all_some_none {A B} (f : A -> option B) l x : In x l -> f x = None -> all_some f l = None.
Proof.
  induction l as [|y l IH]; [intros []|]. intros [E|H] N; [subst y|]; cbn [all_some].
  - rewrite N. reflexivity.
  - rewrite (IH H N). destruct (f y); reflexivity.
Qed.
Lemma not_in_range o : ~ representable (oq_date o) -> assemble o = None.
Proof. intros H. unfold assemble. destruct (in_bounds (oq_date o)) eqn:E; [contradict H; apply in_bounds_inv, E|]. rewrite andb_false_r. reflexivity. Qed.
Lemma convert_valid o : oq_valid o ->
  convert o = Ok (microseconds (oq_year o) (oq_month o) (oq_day o) (oq_hour o) (oq_minute o) (Zfloor (oq_second o)) 0).
Proof.
  intros (V & Hh & Hm & Hs). unfold convert, whole_of. rewrite Ztrunc_floor by lra.
  assert (0 <= Zfloor (oq_second o) <= 59).
  { split; [apply Zfloor_lub; cbn; lra|]. apply Z.lt_succ_r. apply lt_IZR. pose proof (Zfloor_lb (oq_second o)). cbn. lra. }
  rewrite make_datetime_ok; [cbn [rbind dt_year dt_month dt_day dt_hour dt_minute dt_second dt_micro]; reflexivity|exact V| |lia].
  unfold valid_time. lia.
Qed.
Lemma all_ok_map {A B} (f : A -> res B) (g : A -> B) l : Forall (fun x => f x = Ok (g x)) l -> all_ok f l = Ok (map g l).
Proof. induction 1 as [|x l E _ IH]; [reflexivity|]. cbn [all_ok map]. rewrite E. cbn [rbind]. rewrite IH. reflexivity. Qed.
Theorem C160_fractions_lost rows : Forall (fun o => oq_valid o /\ 1000 <= oq_year o) rows ->
  Exists (fun o => ~ representable (oq_date o)) rows ->
  from_times false rows = Ok (map (fun o => microseconds (oq_year o) (oq_month o) (oq_day o) (oq_hour o) (oq_minute o) (Zfloor (oq_second o)) 0) rows).
Proof.
  intros V X. apply Exists_exists in X as (o & Ho & N). unfold from_times. rewrite (all_some_none assemble rows o Ho (not_in_range o N)).
  apply all_ok_map. eapply Forall_impl; [|exact V]. intros p [H _]. apply convert_valid, H.
Qed.
Theorem C160_microseconds_kept_refuted : exists recent old,
  convertible recent /\ oq_valid recent /\ oq_valid old /\ 1000 <= oq_year old /\
  (exists a, from_times false [recent] = Ok [a] /\ Rabs (IZR a - oq_value recent) <= 1)%R /\
  (exists a b, from_times false [recent; old] = Ok [a; b] /\ Rabs (IZR a - oq_value recent) > 900000)%R.
Proof.
  exists (mkoq 2020 1 1 0 0 (0.95)%R), (mkoq 1600 1 1 0 0 0).
  assert (V : valid_date 2020 1 1). { split; [lia|]. exists 31. split; [right; right; split; [cbn; tauto|reflexivity]|lia]. }
  assert (V' : valid_date 1600 1 1). { split; [lia|]. exists 31. split; [right; right; split; [cbn; tauto|reflexivity]|lia]. }
  assert (C : convertible (mkoq 2020 1 1 0 0 (0.95)%R)).
  { split; [exact V|]. split; [cbn; lra|]. split; [split; vm_compute; reflexivity|].
    unfold oq_value; cbn [oq_year oq_month oq_day oq_hour oq_minute oq_second].
    match goal with |- context [microseconds ?a ?b ?c ?d ?e ?f ?g] => let v := eval vm_compute in (microseconds a b c d e f g) in change (microseconds a b c d e f g) with v end. lra. }
  assert (O1 : oq_valid (mkoq 2020 1 1 0 0 (0.95)%R)). { unfold oq_valid; cbn [oq_year oq_month oq_day oq_hour oq_minute oq_second]. split; [exact V|]. repeat split; try lia; lra. }
  assert (O2 : oq_valid (mkoq 1600 1 1 0 0 0%R)). { unfold oq_valid; cbn [oq_year oq_month oq_day oq_hour oq_minute oq_second]. split; [exact V'|]. repeat split; try lia; lra. }
  split; [exact C|]. split; [exact O1|]. split; [exact O2|]. split; [cbn; lia|]. split.
  - destruct (C159_imported_times false [mkoq 2020 1 1 0 0 (0.95)%R]) as (l & E & F); [constructor; [exact C|constructor]|].
    inversion F as [|? us ? l' N F']; subst. inversion F'; subst. exists us. split; [exact E|]. lra.
  - rewrite C160_fractions_lost.
    + eexists. eexists. split; [reflexivity|]. cbn [oq_year oq_month oq_day oq_hour oq_minute oq_second].
      rewrite (Zfloor_imp 0) by (cbn; lra). unfold oq_value; cbn [oq_year oq_month oq_day oq_hour oq_minute oq_second].
      match goal with |- (Rabs ?e > _)%R => replace e with (- 950000)%R by lra end. rewrite Rabs_left; lra.
    + constructor; [split; [exact O1|cbn; lia]|]. constructor; [split; [exact O2|cbn; lia]|constructor].
    + apply Exists_cons_tl. apply Exists_cons_hd. intros [A _]; vm_compute in A; congruence.
Qed.

(** ** C161: a catalogue of numbers only *)
Theorem C161_numbers_only_refuted rows : Exists (fun o => 1000 <= oq_year o /\ ~ representable (oq_date o)) rows ->
  from_times true rows = Err TypeError.
Proof.
  intros X. apply Exists_exists in X as (o & Ho & _ & N). unfold from_times. rewrite (all_some_none assemble rows o Ho (not_in_range o N)). reflexivity.
Qed.
Example C161_case : let o := mkoq 1600 1 1 0 0 0 in oq_valid o /\ 1000 <= oq_year o /\ ~ representable (oq_date o) /\
  from_times false [o] = Ok [microseconds 1600 1 1 0 0 0 0] /\ from_times true [o] = Err TypeError.
Proof.
  intros o.
  assert (O2 : oq_valid o).
  { unfold oq_valid, o; cbn [oq_year oq_month oq_day oq_hour oq_minute oq_second]. split; [split; [lia|]|repeat split; try lia; lra].
    exists 31. split; [right; right; split; [cbn; tauto|reflexivity]|lia]. }
  assert (N : ~ representable (oq_date o)) by (intros [A _]; vm_compute in A; congruence).
  split; [exact O2|]. split; [cbn; lia|]. split; [exact N|]. split.
  - rewrite C160_fractions_lost; [|constructor; [split; [exact O2|cbn; lia]|constructor]|constructor; exact N].
    unfold o; cbn [map oq_year oq_month oq_day oq_hour oq_minute oq_second]. rewrite (Zfloor_imp 0) by (cbn; lra). reflexivity.
  - apply C161_numbers_only_refuted. constructor. split; [cbn; lia|exact N].
Qed.

(** ** C163, C164: impossible dates and times *)
Lemma all_ok_err {A B} (f : A -> res B) l x e : In x l -> f x = Err e -> exists e', all_ok f l = Err e'.
Proof.
  induction l as [|y l IH]; [intros []|]. intros [E|H] N; [subst y|]; cbn [all_ok].
  - rewrite N. eexists. reflexivity.
  - destruct (f y) as [v|e']; cbn [rbind]; [|eexists; reflexivity]. destruct (IH H N) as [e' ->]. eexists. reflexivity.
Qed.
Theorem C163_impossible_dates_rejected all_numbers rows o : In o rows -> 1000 <= oq_year o <= 9999 -> 0 <= oq_month o <= 99 -> 0 <= oq_day o <= 99 ->
  ~ valid_date (oq_year o) (oq_month o) (oq_day o) -> exists e, from_times all_numbers rows = Err e.
Proof.
  intros Ho _ _ _ N. unfold from_times.
  assert (D : is_date (oq_year o) (oq_month o) (oq_day o) = false). { destruct (is_date _ _ _) eqn:E; [contradict N; apply is_date_inv, E|reflexivity]. }
  rewrite (all_some_none assemble rows o Ho). 2: { unfold assemble. rewrite D. reflexivity. }
  destruct all_numbers; [eexists; reflexivity|]. apply (all_ok_err convert rows o ValueError Ho). unfold convert, make_datetime.
  unfold is_date in D. rewrite D. reflexivity.
Qed.
Example C163_case : ~ valid_date 2021 2 29.
Proof. intros [_ (n & [[_ [[L _]|[_ ->]]]|[[H _]|[H _]]] & B)]; [|lia|cbn in H; lia|cbn in H; lia]. destruct L as [[k K] _]. lia. Qed.
(** hour 24 and minute 99 are accepted *)
Theorem C164_impossible_times_rejected_refuted o : convertible o -> ~ oq_valid o -> exists us,
  from_times true [o] = Ok [us] /\ (Rabs (IZR us - oq_value o) <= 1)%R.
Proof.
  intros C _. destruct (C159_imported_times true [o]) as (l & E & F); [constructor; [exact C|constructor]|].
  inversion F as [|? us ? l' N F']; subst. inversion F'; subst. exists us. split; [exact E|]. lra.
Qed.
Example C164_case : let o := mkoq 2020 1 1 24 99 0 in convertible o /\ ~ oq_valid o.
Proof.
  intros o.
  split; [|unfold oq_valid, o; cbn [oq_year oq_month oq_day oq_hour oq_minute oq_second]; lia].
  assert (V : valid_date 2020 1 1). { split; [lia|]. exists 31. split; [right; right; split; [cbn; tauto|reflexivity]|lia]. }
  split; [exact V|]. split; [cbn; lra|]. split; [split; vm_compute; reflexivity|].
  unfold oq_value, o; cbn [oq_year oq_month oq_day oq_hour oq_minute oq_second].
  match goal with |- context [microseconds ?a ?b ?c ?d ?e ?f ?g] => let v := eval vm_compute in (microseconds a b c d e f g) in change (microseconds a b c d e f g) with v end. lra.
Qed.
Print Assumptions C158_exported_times.
Print Assumptions C158_round_trip.
Print Assumptions C159_imported_times.
Print Assumptions C160_fractions_lost.
Print Assumptions C160_microseconds_kept_refuted.
Print Assumptions C161_numbers_only_refuted.
Print Assumptions C163_impossible_dates_rejected.
Print Assumptions C164_impossible_times_rejected_refuted.
