(** * Proofs about the greedy loop of the declustering *)
From Coq Require Import ZArith List Bool Lia Permutation Sorted.
From Verif Require Import Base Num SortLib Decluster_model.
Import ListNotations.

(** ** stable insertion sort of numbered rows *)
Section Stable.
  Context {A : Type} (le : nat * A -> nat * A -> bool).
  Hypothesis le_total : forall x y, le x y = true \/ le y x = true.
  Hypothesis le_trans : forall x y z, le x y = true -> le y z = true -> le x z = true.
  Definition bef (x y : nat * A) : Prop := le x y = true /\ (le y x = true -> fst x < fst y).
  Lemma insert_bef x l : (forall y, In y l -> fst x < fst y) -> StronglySorted bef l -> StronglySorted bef (insert_by le x l).
  Proof.
    intros Hx Hs. induction Hs as [|y l Hs IH Hy]; [repeat constructor|]. cbn [insert_by]. destruct (le x y) eqn:E.
    - constructor; [constructor; assumption|]. rewrite Forall_forall in *. intros z [<-|Hz].
      + split; [exact E|]. intros _. apply Hx. left; reflexivity.
      + split; [eapply le_trans; [exact E|]; apply (Hy z Hz)|]. intros _. apply Hx. right; exact Hz.
    - constructor; [apply IH; intros; apply Hx; right; assumption|]. rewrite Forall_forall in *. intros z Hz.
      apply (Permutation_in _ (Permutation_sym (insert_by_perm le x l))) in Hz. destruct Hz as [<-|Hz]; [|apply Hy; exact Hz].
      split; [destruct (le_total x y); congruence|]. congruence.
  Qed.
  Lemma isort_bef (l : list A) : forall a, StronglySorted bef (isort le (combine (seq a (length l)) l)).
  Proof.
    induction l as [|x l IH]; intros a; [constructor|]. cbn [length seq combine isort]. apply insert_bef; [|apply IH].
    intros y Hy. apply (Permutation_in _ (Permutation_sym (isort_perm le _))) in Hy. destruct y as [p y]. apply in_combine_l in Hy. apply in_seq in Hy. cbn. lia.
  Qed.
End Stable.

(** ** the greedy loop over positions *)
Section Greedy.
  Context (n : nat) (win : nat -> nat -> bool).
  Hypothesis win_refl : forall i, i < n -> win i i = true.
  (** 1 + the index of the first main in [M] that covers [j]; 0 if there is none *)
  Fixpoint first_cover (k : nat) (M : list nat) (j : nat) : nat :=
    match M with [] => 0 | m :: M => if win m j then k else first_cover (S k) M j end.
  Definition cid_of (M : list nat) (j : nat) : nat := first_cover 1 M j.
  Lemma first_cover_zero M j : forall k, 0 < k -> (first_cover k M j = 0 <-> forall m, In m M -> win m j = false).
  Proof.
    induction M as [|m M IH]; intros k Hk; cbn [first_cover]; [split; [intros _ ? []|reflexivity]|].
    destruct (win m j) eqn:E.
    - split; [lia|]. intros H. rewrite H in E by (left; reflexivity). discriminate.
    - rewrite IH by lia. split; intros H m' Hm; [destruct Hm as [<-|Hm]; auto|apply H; right; exact Hm].
  Qed.
  Lemma first_cover_snoc M i j : forall k, 0 < k -> first_cover k (M ++ [i]) j = if (first_cover k M j =? 0) then (if win i j then k + length M else 0) else first_cover k M j.
  Proof.
    induction M as [|m M IH]; intros k Hk; cbn [first_cover app length].
    - destruct (win i j); cbn; lia.
    - destruct (win m j); [destruct (Nat.eqb_spec k 0); [lia|reflexivity]|]. rewrite IH by lia. destruct (first_cover (S k) M j =? 0); [|reflexivity]. destruct (win i j); lia.
  Qed.
  Definition flag_of (M : list nat) (j : nat) : bool := (cid_of M j =? 0) || existsb (Nat.eqb j) M.
  Definition state_of (M : list nat) : list nat * nat * list bool := (map (cid_of M) (seq 0 n), S (length M), map (flag_of M) (seq 0 n)).
  Definition next (M : list nat) (i : nat) : list nat := if (cid_of M i =? 0) then M ++ [i] else M.
  Definition mains (ord : list nat) : list nat := fold_left next ord [].
  (** the flags after a new main *)
  Lemma flag_snoc M i j : (forall m, In m M -> m < n) -> i < n -> j < n -> cid_of M i = 0 ->
    flag_of (M ++ [i]) j = if (j =? i) then true else if (cid_of M j =? 0) && win i j then false else flag_of M j.
  Proof.
    intros HM Hi Hj Hc. unfold flag_of, cid_of. rewrite first_cover_snoc by lia. rewrite existsb_app. cbn [existsb]. rewrite orb_false_r.
    destruct (Nat.eqb_spec j i) as [->|Hn]; [rewrite !orb_true_r; reflexivity|]. rewrite orb_false_r.
    destruct (Nat.eqb_spec (first_cover 1 M j) 0) as [E|E].
    - destruct (win i j); [|rewrite Nat.eqb_refl; reflexivity]. cbn [andb orb].
      destruct (existsb (Nat.eqb j) M) eqn:X; [|destruct (Nat.eqb_spec (1 + length M) 0); [lia|reflexivity]].
      exfalso. apply existsb_exists in X. destruct X as (m & Hm & Em). apply Nat.eqb_eq in Em. subst m.
      assert (win j j = false) by (apply (proj1 (first_cover_zero M j 1 ltac:(lia)) E); exact Hm). rewrite win_refl in H by exact Hj. discriminate.
    - destruct (Nat.eqb_spec (first_cover 1 M j) 0); [contradiction|]. reflexivity.
  Qed.
  Lemma mains_snoc ord i : mains (ord ++ [i]) = next (mains ord) i.
  Proof. unfold mains. rewrite fold_left_app. reflexivity. Qed.
  Lemma mains_incl ord i : In i (mains ord) -> In i ord.
  Proof.
    induction ord as [|x ord IH] using rev_ind; [intros []|]. rewrite mains_snoc. unfold next. destruct (_ =? 0); rewrite ?in_app_iff; tauto.
  Qed.
  Lemma mains_app l1 l2 i : In i (mains l1) -> In i (mains (l1 ++ l2)).
  Proof.
    intros H. induction l2 as [|x l2 IH] using rev_ind; [rewrite app_nil_r; exact H|]. rewrite app_assoc, mains_snoc. unfold next. destruct (_ =? 0); rewrite ?in_app_iff; tauto.
  Qed.
  Lemma mains_prefix l1 l2 i : In i (mains (l1 ++ l2)) -> In i (mains l1) \/ In i l2.
  Proof.
    induction l2 as [|x l2 IH] using rev_ind; [rewrite app_nil_r; auto|]. rewrite app_assoc, mains_snoc. unfold next. destruct (_ =? 0); rewrite ?in_app_iff; intros H; [destruct H as [H|[<-|[]]]|]; try (destruct (IH H); tauto). right. right. left. reflexivity.
  Qed.
  Lemma cid_zero M j : cid_of M j = 0 <-> forall m, In m M -> win m j = false.
  Proof. apply first_cover_zero. lia. Qed.
  (** the mains of the whole order: i is one iff no main before it covers it *)
  Lemma mains_iff l1 i l2 : NoDup (l1 ++ i :: l2) -> (In i (mains (l1 ++ i :: l2)) <-> forall m, In m (mains (l1 ++ i :: l2)) -> In m l1 -> win m i = false).
  Proof.
    intros Hnd. assert (Hi : ~ In i l1 /\ ~ In i l2) by (apply NoDup_remove_2 in Hnd; rewrite in_app_iff in Hnd; tauto).
    assert (Hm : forall m, In m l1 -> (In m (mains (l1 ++ i :: l2)) <-> In m (mains l1))).
    { intros m H1. split; [|apply mains_app]. intros H. apply mains_prefix in H. destruct H as [H|H]; [exact H|]. exfalso.
      apply in_split in H1. destruct H1 as (a & b & ->). rewrite <- app_assoc in Hnd. cbn [app] in Hnd. apply NoDup_remove_2 in Hnd. apply Hnd. rewrite !in_app_iff. tauto. }
    assert (K : In i (mains (l1 ++ i :: l2)) <-> cid_of (mains l1) i = 0).
    { change (i :: l2) with ([i] ++ l2). rewrite app_assoc. split.
      - intros H. apply mains_prefix in H. destruct H as [H|H]; [|tauto]. rewrite mains_snoc in H. unfold next in H. destruct (Nat.eqb_spec (cid_of (mains l1) i) 0); [assumption|]. apply mains_incl in H. tauto.
      - intros H. apply mains_app. rewrite mains_snoc. unfold next. rewrite H, Nat.eqb_refl. apply in_app_iff. right; left; reflexivity. }
    rewrite K, cid_zero. split.
    - intros H m Hin H1. apply H. apply Hm; assumption.
    - intros H m Hin. apply H; [apply mains_app; exact Hin|]. apply mains_incl. exact Hin.
  Qed.
  (** every event in the order is covered *)
  Lemma all_covered ord i : In i ord -> i < n -> cid_of (mains ord) i <> 0.
  Proof.
    intros H Hi. apply in_split in H. destruct H as (l1 & l2 & ->). change (i :: l2) with ([i] ++ l2). rewrite app_assoc.
    intros E. rewrite cid_zero in E.
    destruct (Nat.eqb_spec (cid_of (mains l1) i) 0) as [Z|Z].
    - assert (W : win i i = false); [apply E|rewrite win_refl in W by exact Hi; discriminate]. apply mains_app. rewrite mains_snoc. unfold next. rewrite Z, Nat.eqb_refl. apply in_app_iff. right; left; reflexivity.
    - apply Z, cid_zero. intros m Hm. apply E. apply mains_app. rewrite mains_snoc. unfold next. destruct (_ =? 0); [apply in_app_iff; left|]; exact Hm.
  Qed.
  (** the cluster number is the index of the first covering main *)
  Lemma first_cover_spec M j : forall k c, 0 < k -> first_cover k M j = c -> c <> 0 -> exists M1 m M2, M = M1 ++ m :: M2 /\ c = k + length M1 /\ win m j = true /\ forall m', In m' M1 -> win m' j = false.
  Proof.
    induction M as [|m M IH]; intros k c Hk E Hc; cbn [first_cover] in E; [congruence|]. destruct (win m j) eqn:W.
    - exists [], m, M. repeat split; [cbn; lia|exact W|intros ? []].
    - apply IH in E; [|lia|exact Hc]. destruct E as (M1 & m0 & M2 & -> & -> & Hw & Hf). exists (m :: M1), m0, M2. repeat split; [cbn; lia|exact Hw|]. intros m' [<-|Hm']; auto.
  Qed.
  Lemma mains_order l1 x l2 : exists t, mains (l1 ++ x :: l2) = mains l1 ++ t /\ forall y, In y t -> In y (x :: l2).
  Proof.
    revert x. induction l2 as [|z l2 IH] using rev_ind; intros x.
    - rewrite mains_snoc. unfold next. destruct (_ =? 0); [exists [x]|exists []; rewrite app_nil_r]; split; try reflexivity; auto. intros ? [].
    - change (l1 ++ x :: l2 ++ [z]) with (l1 ++ (x :: l2) ++ [z]). rewrite app_assoc, mains_snoc. destruct (IH x) as (t & -> & Ht). unfold next. destruct (_ =? 0).
      + exists (t ++ [z]). rewrite <- app_assoc. split; [reflexivity|]. intros y Hy. apply in_app_iff in Hy. destruct Hy as [Hy|[<-|[]]]; [destruct (Ht y Hy); [left; assumption|right; apply in_app_iff; left; assumption]|right; apply in_app_iff; right; left; reflexivity].
      + exists t. split; [reflexivity|]. intros y Hy. destruct (Ht y Hy); [left; assumption|right; apply in_app_iff; left; assumption].
  Qed.
  (** mains keep the processing order *)
  Lemma mains_sorted (R : nat -> nat -> Prop) ord : StronglySorted R ord -> StronglySorted R (mains ord).
  Proof.
    intros H. induction ord as [|x ord IH] using rev_ind; [constructor|]. rewrite mains_snoc.
    assert (H1 : StronglySorted R ord /\ forall y, In y ord -> R y x).
    { clear -H. induction ord as [|a l IH]; [split; [constructor|intros ? []]|]. cbn [app] in H. inversion_clear H. destruct (IH H0) as [A B]. rewrite Forall_forall in H1. split.
      - constructor; [exact A|]. apply Forall_forall. intros y Hy. apply H1. apply in_app_iff. left; exact Hy.
      - intros y [<-|Hy]; [|auto]. apply H1. apply in_app_iff. right; left; reflexivity. }
    destruct H1 as [H1 H2]. specialize (IH H1). unfold next. destruct (_ =? 0); [|exact IH].
    assert (K : forall y, In y (mains ord) -> R y x) by (intros y Hy; apply H2, mains_incl, Hy).
    clear -IH K. induction IH as [|a l Hs IH Ha]; [repeat constructor|]. cbn [app]. constructor; [apply IH; intros; apply K; right; assumption|]. apply Forall_forall. intros y Hy. apply in_app_iff in Hy. rewrite Forall_forall in Ha.
    destruct Hy as [Hy|[<-|[]]]; [auto|]. apply K. left; reflexivity.
  Qed.
End Greedy.

Lemma list_nth_seq {A} (l : list A) d : l = map (fun i => nth i l d) (seq 0 (length l)).
Proof. induction l as [|e l IH]; [reflexivity|]. cbn [length seq map nth]. f_equal. rewrite <- seq_shift, map_map. exact IH. Qed.
(** ** the loop of the model is the greedy loop *)
Section Loop.
  Context {T : Type} {N : Num T} (dist : T -> T -> T -> T -> T) (fs : T) (evs : list (event T)) (sws tws : list T).
  Definition ev (i : nat) : event T := nth i evs (mkev 0%Z nnan nnan nnan nnan).
  (** event [j] is in the window of event [i] *)
  Definition in_window (i j : nat) : bool :=
    let dt := nsub (nfloor (e_time (ev j))) (nfloor (e_time (ev i))) in
    (nleb (nmul (nopp (nth i tws nnan)) fs) dt && nleb dt (nth i tws nnan)) &&
    nleb (dist (e_lon (ev j)) (e_lat (ev j)) (e_lon (ev i)) (e_lat (ev i))) (nth i sws nnan).
  (** the default index: the label is the position *)
  Hypothesis labels : forall i, i < length evs -> e_label (ev i) = Z.of_nat i.
  Hypothesis sw_len : length sws = length evs.
  Hypothesis in_own : forall i, i < length evs -> in_window i i = true.

  Lemma np_pos_ok i : i < length evs -> np_pos (length evs) (Z.of_nat i) = Ok i.
  Proof. intros H. unfold np_pos. rewrite (proj2 (Z.leb_le 0 _)) by lia. rewrite (proj2 (Z.ltb_lt _ _)) by lia. cbn. rewrite Nat2Z.id. reflexivity. Qed.
  Lemma find_label (l : list Z) (vs : list T) a : length vs = length l -> (forall k, k < length l -> nth k l 0%Z = Z.of_nat (a + k)) ->
    forall i, i < length l -> find (fun p => (fst p =? Z.of_nat (a + i))%Z) (combine l vs) = Some (Z.of_nat (a + i), nth i vs nnan).
  Proof.
    revert vs a. induction l as [|z l IH]; intros [|v vs] a Hl H i Hi; cbn in Hl, Hi; try lia. cbn [combine find fst].
    pose proof (H 0 ltac:(cbn; lia)) as H0. cbn in H0. rewrite Nat.add_0_r in H0. subst z.
    destruct i as [|i].
    - rewrite Nat.add_0_r, Z.eqb_refl. reflexivity.
    - destruct (Z.eqb_spec (Z.of_nat a) (Z.of_nat (a + S i))); [lia|]. replace (a + S i) with (S a + i) by lia. cbn [nth]. apply IH; [lia| |lia].
      intros k Hk. specialize (H (S k) ltac:(cbn; lia)). cbn [nth] in H. rewrite H. f_equal. lia.
  Qed.
  Lemma by_label_ok i : i < length evs -> by_label (map e_label evs) sws (Z.of_nat i) = Ok (nth i sws nnan).
  Proof.
    intros Hi. unfold by_label. pose proof (find_label (map e_label evs) sws 0) as F. cbn [Nat.add] in F. rewrite F; [reflexivity|rewrite map_length; exact sw_len| |rewrite map_length; exact Hi].
    intros k Hk. rewrite map_length in Hk. rewrite (nth_indep _ 0%Z (e_label (mkev 0%Z nnan nnan nnan nnan))) by (rewrite map_length; exact Hk). rewrite map_nth. apply labels. exact Hk.
  Qed.
  Lemma nth_map_seq {A} (f : nat -> A) n i d : i < n -> nth i (map f (seq 0 n)) d = f i.
  Proof. intros H. rewrite (nth_indep _ d (f 0)) by (rewrite map_length, seq_length; exact H). rewrite map_nth, seq_nth by exact H. reflexivity. Qed.
  Lemma evs_seq : evs = map ev (seq 0 (length evs)).
  Proof. apply list_nth_seq. Qed.
  Lemma map2_seq' {A B C} (f : A -> B -> C) g h n a : map2 f (map g (seq a n)) (map h (seq a n)) = map (fun j => f (g j) (h j)) (seq a n).
  Proof. revert a. induction n as [|n IH]; intros a; [reflexivity|]. cbn. f_equal. apply IH. Qed.
  Lemma combine_map_seq {A} (g : nat -> A) n a : combine (seq a n) (map g (seq a n)) = map (fun j => (j, g j)) (seq a n).
  Proof. revert a. induction n as [|n IH]; intros a; [reflexivity|]. cbn. f_equal. apply IH. Qed.
  Lemma map2_evs {B C} (f : B -> event T -> C) g : map2 f (map g (seq 0 (length evs))) evs = map (fun j => f (g j) (ev j)) (seq 0 (length evs)).
  Proof. transitivity (map2 f (map g (seq 0 (length evs))) (map ev (seq 0 (length evs)))); [rewrite <- evs_seq; reflexivity|apply map2_seq']. Qed.
  Lemma combine_evs : combine (seq 0 (length evs)) evs = map (fun j => (j, ev j)) (seq 0 (length evs)).
  Proof. transitivity (combine (seq 0 (length evs)) (map ev (seq 0 (length evs)))); [rewrite <- evs_seq; reflexivity|apply combine_map_seq]. Qed.
  Lemma dec_step_ok M i : (forall m, In m M -> m < length evs) -> i < length evs ->
    dec_step dist fs evs sws tws (state_of (length evs) in_window M) (ev i) = Ok (state_of (length evs) in_window (next in_window M i)).
  Proof.
    intros HM Hi. unfold state_of at 1. unfold dec_step. rewrite labels by exact Hi. rewrite np_pos_ok by exact Hi. cbn [rbind].
    rewrite nth_map_seq by exact Hi. unfold next. destruct (Nat.eqb_spec (cid_of in_window M i) 0) as [E|E]; cbn [negb]; [|reflexivity].
    rewrite by_label_ok by exact Hi. cbn [rbind]. rewrite (nth_indep evs (ev i) (mkev 0%Z nnan nnan nnan nnan)) by exact Hi. fold (ev i).
    unfold state_of. rewrite app_length. cbn [length]. f_equal. rewrite map2_evs. rewrite !map2_seq'.
    assert (S1 : forall j, (cid_of in_window M j =? 0) && ((nleb (nmul (nopp (nth i tws nnan)) fs) (nsub (nfloor (e_time (ev j))) (nfloor (e_time (ev i)))) && nleb (nsub (nfloor (e_time (ev j))) (nfloor (e_time (ev i)))) (nth i tws nnan)))
         && nleb (dist (e_lon (ev j)) (e_lat (ev j)) (e_lon (ev i)) (e_lat (ev i))) (nth i sws nnan) = ((cid_of in_window M j =? 0) && in_window i j)%bool).
    { intros j. rewrite <- andb_assoc. reflexivity. }
    f_equal; [f_equal|].
    - apply map_ext. intros j. rewrite S1. unfold cid_of. rewrite first_cover_snoc by lia. cbn [Nat.add]. destruct (first_cover in_window 1 M j =? 0) eqn:Z; cbn [andb]; [|reflexivity].
      apply Nat.eqb_eq in Z. rewrite Z. reflexivity.
    - lia.
    - unfold set_nth. rewrite map_length, seq_length, combine_map_seq, map_map. apply map_ext_in. intros j Hj. apply in_seq in Hj. cbn [fst snd]. rewrite S1.
      rewrite (flag_snoc (length evs) in_window in_own) by (assumption || lia). reflexivity.
  Qed.
  Lemma next_bound ord M : (forall m, In m M -> m < length evs) -> (forall i, In i ord -> i < length evs) -> forall m, In m (fold_left (next in_window) ord M) -> m < length evs.
  Proof.
    revert M. induction ord as [|i ord IH]; intros M HM Ho m; [apply HM|]. cbn [fold_left]. apply IH; [|intros; apply Ho; right; assumption].
    unfold next. destruct (_ =? 0); [|exact HM]. intros x Hx. apply in_app_iff in Hx. destruct Hx as [Hx|[<-|[]]]; [auto|]. apply Ho. left; reflexivity.
  Qed.
  Lemma dec_loop_ok ord : forall M, (forall m, In m M -> m < length evs) -> (forall i, In i ord -> i < length evs) ->
    dec_loop dist fs evs sws tws (map ev ord) (state_of (length evs) in_window M) = Ok (state_of (length evs) in_window (fold_left (next in_window) ord M)).
  Proof.
    induction ord as [|i ord IH]; intros M HM Ho; [reflexivity|]. cbn [map dec_loop fold_left]. rewrite dec_step_ok by (auto; apply Ho; left; reflexivity). cbn [rbind].
    apply IH; [|intros; apply Ho; right; assumption]. apply (next_bound [i] M HM). intros j [<-|[]]. apply Ho. left; reflexivity.
  Qed.
  Lemma state_nil : state_of (length evs) in_window [] = (repeat 0 (length evs), 1, repeat true (length evs)).
  Proof.
    assert (K : forall A (c : A) n a, map (fun _ : nat => c) (seq a n) = repeat c n) by (intros A c; induction n as [|n IH]; intros a; cbn; [reflexivity|f_equal; apply IH]).
    unfold state_of. cbn [length]. f_equal; [f_equal|]; [exact (K _ 0 _ 0)|exact (K _ true _ 0)].
  Qed.
  (** the order as positions *)
  Definition order : list nat := map fst (ordered evs).
  Lemma ordered_perm : Permutation (combine (seq 0 (length evs)) evs) (ordered evs).
  Proof. apply isort_perm. Qed.
  Lemma order_perm : Permutation (seq 0 (length evs)) order.
  Proof.
    unfold order. etransitivity; [|apply Permutation_map, ordered_perm]. rewrite combine_evs, map_map. cbn [fst]. rewrite map_id. reflexivity.
  Qed.
  Lemma ordered_rows : map snd (ordered evs) = map ev order.
  Proof.
    unfold order. rewrite map_map. apply map_ext_in. intros [p e] H. apply (Permutation_in _ (Permutation_sym ordered_perm)) in H. rewrite combine_evs in H. apply in_map_iff in H. destruct H as (j & E & _). injection E as <- <-. reflexivity.
  Qed.
  Lemma order_lt i : In i order <-> i < length evs.
  Proof. clear labels sw_len in_own. split; intros H. - apply (Permutation_in _ (Permutation_sym order_perm)) in H. apply in_seq in H. lia. - apply (Permutation_in _ order_perm). apply in_seq. lia. Qed.
  Lemma order_nodup : NoDup order.
  Proof. apply (Permutation_NoDup order_perm), seq_NoDup. Qed.
  Lemma decluster_greedy window : window (map e_mag evs) = (sws, tws) -> durations tws = Ok tws ->
    decluster dist window fs evs = Ok (map (flag_of in_window (mains in_window order)) (seq 0 (length evs)), map (cid_of in_window (mains in_window order)) (seq 0 (length evs))).
  Proof.
    intros Hw Hd. unfold decluster. rewrite Hw, Hd. cbn [rbind]. rewrite ordered_rows, <- state_nil. rewrite dec_loop_ok; [reflexivity|intros ? []|]. intros i Hi. apply order_lt. exact Hi.
  Qed.
  (** flags of the result: the mains *)
  Lemma flag_main i : i < length evs -> (flag_of in_window (mains in_window order) i = true <-> In i (mains in_window order)).
  Proof.
    intros Hi. unfold flag_of. rewrite orb_true_iff. split.
    - intros [E|E]; [apply Nat.eqb_eq in E; exfalso; revert E; apply (all_covered (length evs)); [exact in_own|apply order_lt; exact Hi|exact Hi]|]. apply existsb_exists in E. destruct E as (m & Hm & E). apply Nat.eqb_eq in E. subst. exact Hm.
    - intros H. right. apply existsb_exists. exists i. split; [exact H|apply Nat.eqb_refl].
  Qed.
End Loop.
