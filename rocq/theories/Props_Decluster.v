(** * C47, C48: GardnerKnopoffType1 *)
From Coq Require Import ZArith List Bool Lia Reals Lra Permutation Sorted Floats.
From Verif Require Import Base Num XR FloatInst SortLib Decluster_model Decluster_proofs Spec_Decluster.
Import ListNotations.
Open Scope R_scope.

(** a catalogue with n events and the default index *)
Definition catalogue (n : nat) (time mag lon lat : nat -> R) : list (event xr) :=
  map (fun i => mkev (Z.of_nat i) (Fin (time i)) (Fin (mag i)) (Fin (lon i)) (Fin (lat i))) (seq 0 n).
(** times are compared in whole seconds *)
Definition seconds (t : R) : R := IZR (Int_part t).
(** event i is in the window of event j *)
Definition covers (distR : R -> R -> R -> R -> R) (time lon lat sw tw : nat -> R) (fs : R) (j i : nat) : Prop :=
  - tw j * fs <= seconds (time i) - seconds (time j) <= tw j /\ distR (lon i) (lat i) (lon j) (lat j) <= sw j.

Lemma cat_len n time mag lon lat : length (catalogue n time mag lon lat) = n.
Proof. unfold catalogue. rewrite map_length, seq_length. reflexivity. Qed.
Lemma cat_ev n time mag lon lat i : (i < n)%nat -> ev (catalogue n time mag lon lat) i = mkev (Z.of_nat i) (Fin (time i)) (Fin (mag i)) (Fin (lon i)) (Fin (lat i)).
Proof. intros H. unfold ev, catalogue. apply (nth_map_seq (fun i => mkev (Z.of_nat i) (Fin (time i)) (Fin (mag i)) (Fin (lon i)) (Fin (lat i)))). exact H. Qed.

Lemma durations_real n (tw : nat -> R) : durations (map (fun i => Fin (tw i)) (seq 0 n)) = Ok (map (fun i => Fin (tw i)) (seq 0 n)).
Proof. unfold durations. replace (existsb nisnan _) with false; [reflexivity|]. symmetry. apply not_true_is_false. rewrite existsb_exists. intros (x & Hx & E). apply in_map_iff in Hx. destruct Hx as (i & <- & _). discriminate. Qed.

Section Real.
  Context (n : nat) (time mag lon lat sw tw : nat -> R) (fs : R) (dist : xr -> xr -> xr -> xr -> xr) (distR : R -> R -> R -> R -> R).
  Hypothesis Hdist : forall a b c d, dist (Fin a) (Fin b) (Fin c) (Fin d) = Fin (distR a b c d).
  Notation cat := (catalogue n time mag lon lat).
  Notation sws := (map (fun i => Fin (sw i)) (seq 0 n)).
  Notation tws := (map (fun i => Fin (tw i)) (seq 0 n)).
  Notation W := (in_window dist (Fin fs) cat sws tws).
  Lemma win_iff j i : (j < n)%nat -> (i < n)%nat -> (W j i = true <-> covers distR time lon lat sw tw fs j i).
  Proof.
    intros Hj Hi. unfold in_window, covers. rewrite !cat_ev by assumption. rewrite !(nth_map_seq (fun i => Fin (sw i))), !(nth_map_seq (fun i => Fin (tw i))) by assumption.
    cbn [e_time e_lon e_lat]. rewrite !x_floor, x_sub, x_opp, x_mul, Hdist, !x_leb, !andb_true_iff, !rle_true. unfold seconds. tauto.
  Qed.
  (** the rows are ordered by [earlier] *)
  Notation num_rows := (map (fun j => (j, ev cat j)) (seq 0 n)).
  Definition key_le (x y : nat * event xr) : bool := row_le x y.
  Definition rm (e : nat * event xr) : R := match e_mag (snd e) with Fin r => r | _ => 0 end.
  Definition rt (e : nat * event xr) : R := match e_time (snd e) with Fin r => r | _ => 0 end.
  Definition le' (x y : nat * event xr) : bool := rlt (rm y) (rm x) || (negb (rlt (rm x) (rm y)) && rle (rt x) (rt y)).
  Lemma le'_total x y : le' x y = true \/ le' y x = true.
  Proof.
    clear Hdist. clear dist distR fs sw tw time mag lon lat n. unfold le'. rewrite !orb_true_iff, !andb_true_iff, !negb_true_iff, !rlt_true, !rlt_false, !rle_true.
    destruct (Rtotal_order (rm x) (rm y)) as [|[|]]; try tauto. destruct (Rle_dec (rt x) (rt y)); [left; right|right; right]; split; lra.
  Qed.
  Lemma le'_trans x y z : le' x y = true -> le' y z = true -> le' x z = true.
  Proof.
    clear Hdist. clear dist distR fs sw tw time mag lon lat n. unfold le'. rewrite !orb_true_iff, !andb_true_iff, !negb_true_iff, !rlt_true, !rlt_false, !rle_true. lra.
  Qed.
  Lemma insert_ext {A} (l1 l2 : A -> A -> bool) x l : (forall y, In y l -> l1 x y = l2 x y) -> insert_by l1 x l = insert_by l2 x l.
  Proof. induction l as [|y l IH]; intros H; [reflexivity|]. cbn. rewrite H by (left; reflexivity). destruct (l2 x y); [reflexivity|]. f_equal. apply IH. intros; apply H; right; assumption. Qed.
  Lemma isort_ext {A} (l1 l2 : A -> A -> bool) l : (forall x y, In x l -> In y l -> l1 x y = l2 x y) -> isort l1 l = isort l2 l.
  Proof.
    induction l as [|x l IH]; intros H; [reflexivity|]. cbn. rewrite IH by (intros; apply H; right; assumption). apply insert_ext. intros y Hy.
    apply H; [left; reflexivity|right]. apply (Permutation_in _ (Permutation_sym (isort_perm l2 l))). exact Hy.
  Qed.
  Lemma ordered_le' : ordered cat = isort le' (combine (seq 0 n) cat).
  Proof.
    clear Hdist. clear dist distR fs sw tw. unfold ordered. rewrite cat_len. apply isort_ext. intros x y Hx Hy. pose proof (combine_evs cat) as C. rewrite cat_len in C. rewrite C in Hx, Hy.
    apply in_map_iff in Hx, Hy. destruct Hx as (i & <- & Hi), Hy as (j & <- & Hj). apply in_seq in Hi, Hj. unfold row_le, le', larger, nsort_le, rm, rt. cbn [snd]. rewrite !cat_ev by lia. cbn [e_mag e_time]. reflexivity.
  Qed.
  Lemma order_sorted : StronglySorted (earlier mag time) (order cat).
  Proof.
    clear Hdist. clear dist distR fs sw tw. unfold order. pose proof (isort_bef le' le'_total le'_trans cat 0) as H. rewrite cat_len in H. rewrite <- ordered_le' in H.
    assert (Hin : forall x, In x (ordered cat) -> exists i, (i < n)%nat /\ x = (i, ev cat i)).
    { intros x Hx. apply (Permutation_in _ (Permutation_sym (ordered_perm cat))) in Hx. rewrite combine_evs, cat_len in Hx. apply in_map_iff in Hx. destruct Hx as (i & <- & Hi). apply in_seq in Hi. exists i. split; [lia|reflexivity]. }
    induction H as [|x l Hs IH Hx]; [constructor|]. cbn [map]. constructor; [apply IH; intros; apply Hin; right; assumption|].
    apply Forall_forall. intros j Hj. apply in_map_iff in Hj. destruct Hj as (y & <- & Hy). rewrite Forall_forall in Hx. specialize (Hx y Hy).
    destruct (Hin x (or_introl eq_refl)) as (i & Hi & ->). destruct (Hin y (or_intror Hy)) as (k & Hk & ->). cbn [fst]. destruct Hx as [H1 H2].
    unfold le', rm, rt in H1, H2. cbn [snd fst] in H1, H2. rewrite !cat_ev in H1, H2 by assumption. cbn [e_mag e_time] in H1, H2.
    rewrite ?orb_true_iff, ?andb_true_iff, ?negb_true_iff, ?rlt_true, ?rlt_false, ?rle_true in H1, H2. unfold earlier.
    destruct (Rtotal_order (mag i) (mag k)) as [L|[L|L]]; [lra| |left; lra]. right. split; [lra|]. destruct (Rtotal_order (time i) (time k)) as [M|[M|M]]; [left; exact M| |lra].
    right. split; [exact M|]. apply H2. right. lra.
  Qed.
End Real.

Lemma earlier_irrefl mag time i : ~ earlier mag time i i.
Proof. unfold earlier. lra || (intros [H|[_ [H|[_ H]]]]; try lra; lia). Qed.
Lemma earlier_asym mag time i j : earlier mag time i j -> ~ earlier mag time j i.
Proof. unfold earlier. intros [H|[E [H|[E' H]]]] [K|[F [K|[F' K]]]]; try lra. lia. Qed.
Lemma sorted_split {A} (R : A -> A -> Prop) l1 x l2 : StronglySorted R (l1 ++ x :: l2) -> (forall y, In y l1 -> R y x) /\ (forall y, In y l2 -> R x y).
Proof.
  induction l1 as [|a l1 IH]; cbn; intros H; inversion_clear H as [|? ? H0 H1]; rewrite Forall_forall in H1.
  - split; [intros ? []|auto].
  - destruct (IH H0) as [A1 A2]. split; [|exact A2]. intros y [<-|Hy]; [apply H1, in_app_iff; right; left; reflexivity|auto].
Qed.

(** For every catalogue with default index, every window function with non-negative windows,
    every fs_time_prop >= 0 and every distance: the flags are those of Gardner and Knopoff, and
    the clusters are those of the mainshocks. *)
Theorem C47_gardner_knopoff : forall n time mag lon lat sw tw fs dist distR window,
  (forall a b c d, dist (Fin a) (Fin b) (Fin c) (Fin d) = Fin (distR a b c d)) ->
  (forall a b, distR a b a b = 0) ->
  0 <= fs -> (forall i, (i < n)%nat -> 0 <= sw i /\ 0 <= tw i) ->
  window (map (fun i => Fin (mag i)) (seq 0 n)) = (map (fun i => Fin (sw i)) (seq 0 n), map (fun i => Fin (tw i)) (seq 0 n)) ->
  exists flag cluster,
    decluster dist window (Fin fs) (catalogue n time mag lon lat) = Ok (map flag (seq 0 n), map cluster (seq 0 n)) /\
    gk_flags n (earlier mag time) (covers distR time lon lat sw tw fs) (fun i => flag i = true) /\
    gk_clusters n (earlier mag time) (covers distR time lon lat sw tw fs) (fun i => flag i = true) cluster.
Proof.
  intros n time mag lon lat sw tw fs dist distR window Hdist Hself Hfs Hpos Hw.
  set (cat := catalogue n time mag lon lat). set (sws := map (fun i => Fin (sw i)) (seq 0 n)) in *. set (tws := map (fun i => Fin (tw i)) (seq 0 n)) in *.
  set (W := in_window dist (Fin fs) cat sws tws).
  assert (Hlen : length cat = n) by apply cat_len.
  assert (Hlab : forall i, (i < length cat)%nat -> e_label (ev cat i) = Z.of_nat i) by (intros i Hi; unfold cat; rewrite cat_ev by lia; reflexivity).
  assert (Hsw : length sws = length cat) by (unfold sws; rewrite map_length, seq_length; lia).
  assert (Wiff : forall j i, (j < n)%nat -> (i < n)%nat -> (W j i = true <-> covers distR time lon lat sw tw fs j i)) by (intros; apply win_iff; assumption).
  assert (Hown : forall i, (i < length cat)%nat -> W i i = true).
  { intros i Hi. apply Wiff; try lia. unfold covers. rewrite Hself. destruct (Hpos i ltac:(lia)). split; [|assumption]. split; nra. }
  assert (Hwin : window (map e_mag cat) = (sws, tws)).
  { rewrite <- Hw. f_equal. unfold cat, catalogue. rewrite map_map. reflexivity. }
  pose proof (decluster_greedy dist (Fin fs) cat sws tws Hlab Hsw Hown window Hwin (durations_real n tw)) as E. fold W in E. rewrite Hlen in E.
  set (M := mains W (order cat)) in *. exists (flag_of W M), (cid_of W M). split; [exact E|].
  pose proof (order_sorted n time mag lon lat) as Hs. fold cat in Hs.
  assert (Hord : forall i, In i (order cat) <-> (i < n)%nat) by (intros i; rewrite order_lt, Hlen; reflexivity).
  assert (Hflag : forall i, (i < n)%nat -> (flag_of W M i = true <-> In i M)).
  { intros i Hi. unfold M, W. apply flag_main; [exact Hown|lia]. }
  (* before in the order = earlier *)
  assert (Hbef : forall l1 i l2, order cat = l1 ++ i :: l2 -> forall j, (j < n)%nat -> (In j l1 <-> earlier mag time j i)).
  { intros l1 i l2 Eo j Hj. rewrite Eo in Hs. destruct (sorted_split _ _ _ _ Hs) as [S1 S2]. split; [apply S1|]. intros He.
    apply Hord in Hj. rewrite Eo in Hj. apply in_app_iff in Hj. destruct Hj as [Hj|[<-|Hj]]; [exact Hj|exfalso; exact (earlier_irrefl _ _ _ He)|exfalso; exact (earlier_asym _ _ _ _ He (S2 _ Hj))]. }
  assert (HM : forall m, In m M -> (m < n)%nat) by (intros m Hm; apply Hord; eapply mains_incl; exact Hm).
  split.
  - intros i Hi. rewrite Hflag by exact Hi. pose proof (proj2 (Hord i) Hi) as Hin. apply in_split in Hin. destruct Hin as (l1 & l2 & Eo).
    pose proof (mains_iff W l1 i l2) as K. rewrite <- Eo in K. fold M in K. rewrite K by apply order_nodup. split.
    + intros H j Hj Hb Hm Hc. apply Hflag in Hm; [|exact Hj]. apply Wiff in Hc; try assumption. rewrite H in Hc; [discriminate|exact Hm|]. apply (Hbef l1 i l2 Eo); assumption.
    + intros H m Hm H1. pose proof (HM m Hm) as Hmn. destruct (W m i) eqn:X; [|reflexivity]. exfalso. apply (H m Hmn); [apply (Hbef l1 i l2 Eo); assumption|apply Hflag; assumption|apply Wiff; assumption].
  - assert (HMs : StronglySorted (earlier mag time) M) by (apply mains_sorted; exact Hs).
    assert (Hcover : forall i, (i < n)%nat -> exists M1 m M2, M = M1 ++ m :: M2 /\ cid_of W M i = S (length M1) /\ W m i = true /\ forall m', In m' M1 -> W m' i = false).
    { intros i Hi. pose proof (all_covered (length cat) W Hown (order cat) i (proj2 (Hord i) Hi) ltac:(lia)) as Hc. fold M in Hc.
      destruct (first_cover_spec W M i 1 (cid_of W M i) ltac:(lia) eq_refl Hc) as (M1 & m & M2 & A1 & A2 & A3 & A4). exists M1, m, M2. repeat split; assumption. }
    assert (Hself' : forall M1 m M2, M = M1 ++ m :: M2 -> cid_of W M m = S (length M1)).
    { intros M1 m M2 EM. assert (Hmn : (m < n)%nat) by (apply HM; rewrite EM; apply in_app_iff; right; left; reflexivity).
      destruct (Hcover m Hmn) as (N1 & m' & N2 & EN & -> & Hw' & Hno). f_equal.
      (* m' = m because otherwise m' is an earlier main that covers the main m *)
      assert (m' = m \/ earlier mag time m' m).
      { rewrite EN in HMs. destruct (sorted_split _ _ _ _ HMs) as [S1 S2].
        assert (Hm : In m M) by (rewrite EM; apply in_app_iff; right; left; reflexivity). rewrite EN in Hm. apply in_app_iff in Hm. destruct Hm as [Hm|[Hm|Hm]]; [|left; exact Hm|right; apply S2; exact Hm].
        exfalso. specialize (Hno m Hm). rewrite Hown in Hno by lia. discriminate. }
      destruct H as [->|H].
      - rewrite EN in EM. assert (ND : NoDup (N1 ++ m :: N2)). { rewrite <- EN. clear -HMs. induction HMs as [|a l Hs IH Ha]; constructor; [|exact IH]. intros Hin. rewrite Forall_forall in Ha. apply (earlier_irrefl mag time a). apply Ha. exact Hin. }
        clear -EM ND. revert M1 EM. induction N1 as [|a N1 IH]; intros [|b M1] EM; cbn in *; [reflexivity|injection EM as -> EM; exfalso|injection EM as -> EM; exfalso|].
        + inversion_clear ND as [|? ? H _]. apply H. rewrite EM. apply in_app_iff. right; left; reflexivity.
        + inversion_clear ND as [|? ? H _]. apply H. apply in_app_iff. right; left; reflexivity.
        + injection EM as -> EM. f_equal. apply IH; [inversion_clear ND; assumption|exact EM].
      - exfalso. pose proof (proj2 (Hord m) Hmn) as Hin. apply in_split in Hin. destruct Hin as (l1 & l2 & Eo). pose proof (mains_iff W l1 m l2) as K. rewrite <- Eo in K. fold M in K.
        assert (Hm' : In m' M) by (rewrite EN; apply in_app_iff; right; left; reflexivity).
        rewrite (proj1 (K (order_nodup cat))) in Hw'; [discriminate|rewrite EM; apply in_app_iff; right; left; reflexivity|exact Hm'|]. apply (Hbef l1 m l2 Eo); [apply HM; exact Hm'|exact H]. }
    split.
    + intros i Hi. destruct (Hcover i Hi) as (M1 & m & M2 & EM & Ec & Hwm & Hno).
      assert (Hm : In m M) by (rewrite EM; apply in_app_iff; right; left; reflexivity). pose proof (HM m Hm) as Hmn.
      exists m. split; [exact Hmn|]. split; [apply Hflag; assumption|]. split; [rewrite (Hself' M1 m M2 EM), Ec; reflexivity|]. split; [|split; [apply Wiff; assumption|]].
      * (* m does not come after i: otherwise i would not have been covered when treated *)
        pose proof (proj2 (Hord m) Hmn) as Hin. apply in_split in Hin. destruct Hin as (l1 & l2 & Eo).
        pose proof (proj2 (Hord i) Hi) as Hii. rewrite Eo in Hii. apply in_app_iff in Hii.
        rewrite Eo in Hs. destruct (sorted_split _ _ _ _ Hs) as [S1 S2]. destruct Hii as [Hii|[->|Hii]]; [|left; reflexivity|right; apply S2; exact Hii].
        exfalso. (* i earlier than m; then i is covered by a main before m *)
        apply in_split in Hii. destruct Hii as (a & b & ->). rewrite <- app_assoc in Eo. cbn [app] in Eo.
        pose proof (all_covered (length cat) W Hown (a ++ [i]) i) as Hc. specialize (Hc ltac:(apply in_app_iff; right; left; reflexivity) ltac:(lia)).
        rewrite cid_zero in Hc. apply Hc. intros m' Hm'.
        (* mains of a ++ [i] are a prefix of M not containing m *)
        destruct (mains_order W (a ++ [i]) m (l2)) as (t & _ & _).
        assert (Ex : exists t, M = mains W (a ++ [i]) ++ t /\ forall y, In y t -> ~ In y (a ++ [i])).
        { unfold M. rewrite Eo. destruct b as [|z b].
          - cbn [app]. change (a ++ i :: m :: l2) with (a ++ [i] ++ m :: l2). rewrite app_assoc. destruct (mains_order W (a ++ [i]) m l2) as (t' & Et & Ht). exists t'. split; [exact Et|]. intros y Hy Hy'.
            apply Ht in Hy. pose proof (order_nodup cat) as ND. rewrite Eo in ND. cbn [app] in ND. change (a ++ i :: m :: l2) with (a ++ [i] ++ m :: l2) in ND. rewrite app_assoc in ND. clear -ND Hy Hy'. induction (a ++ [i]) as [|c l IH]; [destruct Hy'|]. cbn in ND. inversion_clear ND as [|? ? N1 N2]. destruct Hy' as [<-|Hy']; [apply N1, in_app_iff; right; exact Hy|auto].
          - cbn [app]. change (a ++ i :: z :: b ++ m :: l2) with (a ++ [i] ++ z :: (b ++ m :: l2)). rewrite app_assoc. destruct (mains_order W (a ++ [i]) z (b ++ m :: l2)) as (t' & Et & Ht). exists t'. split; [exact Et|]. intros y Hy Hy'.
            apply Ht in Hy. pose proof (order_nodup cat) as ND. rewrite Eo in ND. cbn [app] in ND. change (a ++ i :: z :: b ++ m :: l2) with (a ++ [i] ++ z :: (b ++ m :: l2)) in ND. rewrite app_assoc in ND. clear -ND Hy Hy'. induction (a ++ [i]) as [|c l IH]; [destruct Hy'|]. cbn in ND. inversion_clear ND as [|? ? N1 N2]. destruct Hy' as [<-|Hy']; [apply N1, in_app_iff; right; exact Hy|auto]. }
        destruct Ex as (t' & Et & Ht). apply Hno.
        (* m is in t', so M1 contains mains (a ++ [i]) *)
        assert (Hmt : ~ In m (mains W (a ++ [i]))).
        { intros Hx. apply mains_incl in Hx. pose proof (order_nodup cat) as ND. rewrite Eo in ND. change (a ++ i :: b ++ m :: l2) with (a ++ [i] ++ b ++ m :: l2) in ND. rewrite app_assoc in ND. clear -ND Hx. induction (a ++ [i]) as [|c l IH]; [destruct Hx|]. cbn in ND. inversion_clear ND as [|? ? N1 N2]. destruct Hx as [->|Hx]; [apply N1; rewrite !in_app_iff; right; right; left; reflexivity|auto]. }
        rewrite EM in Et. clear -Et Hmt Hm'. revert M1 Et. induction (mains W (a ++ [i])) as [|c l IH]; intros M1 Et; [destruct Hm'|]. destruct M1 as [|d M1]; cbn in Et; injection Et as -> Et.
        { exfalso. apply Hmt. left; reflexivity. }
        destruct Hm' as [->|Hm']; [left; reflexivity|right]. apply (IH Hm'); [intros Hx; apply Hmt; right; exact Hx|exact Et].
      * intros m' Hmn' Hmain Hb Hc. apply Hflag in Hmain; [|exact Hmn']. apply Wiff in Hc; try assumption. rewrite Hno in Hc; [discriminate|].
        rewrite EM in HMs, Hmain. destruct (sorted_split _ _ _ _ HMs) as [S1 S2]. apply in_app_iff in Hmain. destruct Hmain as [H|[<-|H]]; [exact H|exfalso; exact (earlier_irrefl _ _ _ Hb)|exfalso; exact (earlier_asym _ _ _ _ Hb (S2 _ H))].
    + intros m m' Hm Hm' Fm Fm' Ec. apply Hflag in Fm, Fm'; try assumption. apply in_split in Fm, Fm'. destruct Fm as (M1 & M2 & E1), Fm' as (N1 & N2 & E2).
      rewrite (Hself' _ _ _ E1), (Hself' _ _ _ E2) in Ec. injection Ec as Ec. rewrite E1 in E2. clear -E2 Ec. revert N1 E2 Ec. induction M1 as [|a M1 IH]; intros [|b N1] E2 Ec; cbn in *; try discriminate; injection E2 as E2 E3; [exact E2|]. apply (IH N1); [exact E3|lia].
Qed.
Print Assumptions C47_gardner_knopoff.
