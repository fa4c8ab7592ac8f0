(** * Lemmas on rate grids *)
From Coq Require Import Reals List Bool String Sorted Permutation Lia Lra ZArith.
From Verif Require Import Base Num XR Dict SortLib Utils_model Rategrid_model Spec_Rategrid.
Import ListNotations.

Section Groups.
  Context {A : Type} (same : A -> A -> bool).
  Lemma step_numbers t : forall x k p u v a b, nth_error (x :: t) p = Some u -> nth_error (x :: t) (S p) = Some v ->
    nth_error (k :: group_numbers_from same x k t) p = Some a -> nth_error (k :: group_numbers_from same x k t) (S p) = Some b ->
    b = if same u v then a else S a.
  Proof.
    induction t as [|y t IH]; intros x k p u v a b Hu Hv Ha Hb.
    - cbn [nth_error] in Hv. destruct p; discriminate Hv.
    - destruct p as [|p].
      + cbn [nth_error group_numbers_from] in *. injection Hu as ->. injection Hv as ->. injection Ha as ->. injection Hb as <-. reflexivity.
      + cbn [group_numbers_from] in Ha, Hb. cbv zeta in Ha, Hb.
        apply (IH y (if same x y then k else S k) p u v a b).
        * exact Hu. * exact Hv. * exact Ha. * exact Hb.
  Qed.
  Lemma numbers_length l : length (group_numbers same l) = length l.
  Proof.
    destruct l as [|x t]; [reflexivity|]. cbn [group_numbers length]. f_equal. generalize 0%nat. revert x.
    induction t as [|y t IH]; intros x k; [reflexivity|]. cbn [group_numbers_from length]. f_equal. apply IH.
  Qed.
  Lemma numbers_step l p u v a b : nth_error l p = Some u -> nth_error l (S p) = Some v ->
    nth_error (group_numbers same l) p = Some a -> nth_error (group_numbers same l) (S p) = Some b -> b = if same u v then a else S a.
  Proof. destruct l as [|x t]; [destruct p; discriminate|]. apply step_numbers. Qed.
  Lemma nth_some {B} (l : list B) p : (p < length l)%nat -> exists x, nth_error l p = Some x.
  Proof. intros H. destruct (nth_error l p) eqn:E; [eauto|]. apply nth_error_None in E. lia. Qed.
  Lemma nth_lt {B} (l : list B) p x : nth_error l p = Some x -> (p < length l)%nat.
  Proof. intros H. apply nth_error_Some. congruence. Qed.

  Lemma numbers_between l : forall d p a b, nth_error (group_numbers same l) p = Some a -> nth_error (group_numbers same l) (p + d) = Some b ->
    (a <= b)%nat /\
    (a = b <-> forall i u v, (p <= i < p + d)%nat -> nth_error l i = Some u -> nth_error l (S i) = Some v -> same u v = true) /\
    (forall m, (a <= m <= b)%nat -> In m (group_numbers same l)).
  Proof.
    induction d as [|d IH]; intros p a b Ha Hb.
    - rewrite Nat.add_0_r in Hb. rewrite Ha in Hb. injection Hb as <-. split; [lia|]. split; [split; [intros _ i u v H; lia | reflexivity]|].
      intros m Hm. replace m with a by lia. apply nth_error_In in Ha. exact Ha.
    - assert (Hl := nth_lt _ _ _ Hb). rewrite numbers_length in Hl.
      destruct (nth_some (group_numbers same l) (p + d)) as [c Hc]; [rewrite numbers_length; lia|].
      destruct (nth_some l (p + d)) as [u Hu]; [lia|]. destruct (nth_some l (S (p + d))) as [v Hv]; [lia|].
      replace (p + S d)%nat with (S (p + d)) in * by lia.
      assert (Hs := numbers_step l (p + d) u v c b Hu Hv Hc Hb). destruct (IH p a c Ha Hc) as (H1 & H2 & H3).
      split; [destruct (same u v); lia|]. split.
      + split.
        * intros E i u' v' Hi Hu' Hv'. assert (Hsame : same u v = true) by (destruct (same u v); [reflexivity | lia]).
          rewrite Hsame in Hs. destruct (Nat.eq_dec i (p + d)) as [-> |Hne].
          -- rewrite Hu in Hu'. rewrite Hv in Hv'. injection Hu' as <-. injection Hv' as <-. exact Hsame.
          -- apply (proj1 H2 ltac:(lia) i); auto. lia.
        * intros H. rewrite (H (p + d)%nat u v) in Hs; auto; [|lia]. rewrite Hs. apply H2. intros i u' v' Hi. apply H. lia.
      + intros m Hm. destruct (Nat.eq_dec m b) as [-> |Hne]; [apply nth_error_In in Hb; exact Hb|]. apply H3. destruct (same u v); lia.
  Qed.
  Lemma numbers_first l a : nth_error (group_numbers same l) 0 = Some a -> a = 0%nat.
  Proof. destruct l; cbn; [discriminate | congruence]. Qed.

  Lemma position_spec perm i j : NoDup perm -> (position i perm = Some j <-> nth_error perm j = Some i).
  Proof.
    intros H. revert j. induction H as [|p perm Hp H IH]; intros j; cbn [position].
    - destruct j; split; discriminate.
    - destruct (p =? i)%nat eqn:E; [apply Nat.eqb_eq in E | apply Nat.eqb_neq in E].
      + subst p. destruct j as [|j]; cbn [nth_error]; [split; reflexivity|]. split; [discriminate|]. intros K. apply nth_error_In in K. contradiction.
      + destruct j as [|j]; cbn [nth_error].
        * split; [destruct (position i perm); discriminate | congruence].
        * rewrite <- IH. destruct (position i perm); cbn [option_map]; split; congruence.
  Qed.
End Groups.

(** ** the rows *)
Lemma xeqb_spec (x y : xr) : neqb x y = true <-> x = y /\ x <> NaN.
Proof.
  destruct x as [a| | |], y as [b| | |]; cbn; try (split; [discriminate | intros [E ?]; congruence]); try (split; [split; congruence | reflexivity]).
  - unfold req. destruct (Req_EM_T a b) as [E|E]; split; try congruence; [intros _; split; congruence | intros [K _]; congruence].
Qed.
Lemma same_row_spec (r s : list xr) : same_row r s = true <-> r = s /\ ~ In NaN r.
Proof.
  revert s. induction r as [|x r IH]; intros [|y s]; cbn [same_row]; try (split; [discriminate | intros [E _]; discriminate]).
  - split; [intros _; split; [reflexivity | intros []] | reflexivity].
  - rewrite andb_true_iff, xeqb_spec, IH. cbn [In]. split.
    + intros ((-> & H) & -> & H'). split; [reflexivity|]. intros [K|K]; [congruence | contradiction].
    + intros (E & H). injection E as -> ->. split; [split; [reflexivity | intros ->; apply H; left; reflexivity] | split; [reflexivity | tauto]].
Qed.
Lemma before_irr x : ~ before x x.
Proof. destruct x; cbn; try tauto. lra. Qed.
Lemma before_trans x y z : before x y -> before y z -> before x z.
Proof. destruct x, y, z; cbn; try tauto. lra. Qed.
Lemma row_before_trans r s t : row_before r s -> row_before s t -> row_before r t.
Proof.
  revert s t. induction r as [|x r IH]; intros [|y s] [|z t]; cbn; try tauto.
  intros [H1|[-> H1]] [H2|[-> H2]]; auto; [left; eapply before_trans; eauto | right; split; [reflexivity | eapply IH; eauto]].
Qed.
Lemma row_before_irr r : ~ row_before r r.
Proof. induction r as [|x r IH]; cbn; [tauto|]. intros [H|[_ H]]; [exact (before_irr x H) | exact (IH H)]. Qed.

Lemma ss_nth {A} (R : A -> A -> Prop) l : StronglySorted R l -> forall p q x y, (p < q)%nat -> nth_error l p = Some x -> nth_error l q = Some y -> R x y.
Proof.
  induction 1 as [|a l H IH F]; intros p q x y Hpq Hx Hy; [destruct p; discriminate|].
  destruct q as [|q]; [lia|]. cbn in Hy. destruct p as [|p]; cbn in Hx.
  - injection Hx as ->. rewrite Forall_forall in F. apply F. apply nth_error_In in Hy. exact Hy.
  - apply (IH p q); auto. lia.
Qed.

Section Unique.
  Variable srt : list (list xr) -> list nat.
  Hypothesis Hsrt : sorts_rows srt.
  Variable rows : list (list xr).
  Hypothesis Hlen : forall r s, In r rows -> In s rows -> length r = length s.

  Lemma unique_inverse_spec : exists ids, unique_inverse same_row srt rows = Ok ids /\ length ids = length rows /\
    (forall i j r s a b, nth_error rows i = Some r -> nth_error rows j = Some s -> nth_error ids i = Some a -> nth_error ids j = Some b ->
      (a = b <-> i = j \/ (r = s /\ complete_row r)) /\ (row_before r s -> (a < b)%nat)) /\
    (forall b m, In b ids -> (m < b)%nat -> In m ids).
  Proof.
    destruct (Hsrt rows Hlen) as [Hp Hs]. set (perm := srt rows) in *.
    assert (Hnd : NoDup perm) by (eapply Permutation_NoDup; [apply Permutation_sym; exact Hp | apply seq_NoDup]).
    assert (Hin : forall i, In i perm <-> (i < length rows)%nat).
    { intros i. split; intros H.
      - apply (Permutation_in _ Hp) in H. apply in_seq in H. lia.
      - apply (Permutation_in _ (Permutation_sym Hp)). apply in_seq. lia. }
    assert (Hpl : length perm = length rows) by (rewrite (Permutation_length Hp), seq_length; reflexivity).
    destruct (gather_ok rows perm) as [aux Ha]; [intros i; apply Hin|].
    assert (Hg : forall q i, nth_error perm q = Some i -> nth_error aux q = nth_error rows i).
    { intros q i Hq. apply gather_spec in Ha. revert Hq. clear -Ha. revert q. induction Ha as [|x y l l' Hxy H IH]; intros [|q] Hq; cbn in *; try discriminate.
      - injection Hq as <-. symmetry. exact Hxy.
      - apply IH. exact Hq. }
    assert (Hal : length aux = length rows) by (rewrite (gather_length _ _ _ Ha); exact Hpl).
    unfold unique_inverse. fold perm. rewrite Ha. cbn [rbind].
    set (num := group_numbers same_row aux).
    assert (Hnl : length num = length rows) by (unfold num; rewrite numbers_length; exact Hal).
    eexists. split; [reflexivity|].
    set (ids := map _ (seq 0 (length rows))).
    assert (Hid : forall i a, nth_error ids i = Some a -> exists q, nth_error perm q = Some i /\ nth_error num q = Some a).
    { intros i a H. assert (Hi : (i < length rows)%nat) by (apply nth_lt in H; unfold ids in H; rewrite map_length, seq_length in H; exact H).
      unfold ids in H. rewrite nth_error_map in H. rewrite (nth_error_nth' _ 0%nat) in H by (rewrite seq_length; exact Hi). rewrite seq_nth in H by exact Hi.
      cbn [option_map Nat.add] in H. assert (Hq := proj2 (Hin i) Hi). apply In_nth_error in Hq. destruct Hq as [q Hq].
      rewrite (proj2 (position_spec perm i q Hnd) Hq) in H. exists q. split; [exact Hq|]. injection H as <-.
      apply nth_error_nth'. rewrite Hnl. rewrite <- Hpl. eapply nth_lt. exact Hq. }
    assert (Hids : forall q i, nth_error perm q = Some i -> exists a, nth_error ids i = Some a /\ nth_error num q = Some a).
    { intros q i Hq. assert (Hi : (i < length rows)%nat) by (apply Hin; eapply nth_error_In; exact Hq).
      destruct (nth_some ids i) as [a Hia]; [unfold ids; rewrite map_length, seq_length; exact Hi|]. exists a. split; [exact Hia|].
      destruct (Hid i a Hia) as (q' & Hq' & Hn). assert (q' = q); [|subst; exact Hn].
      apply (proj1 (NoDup_nth_error perm)); [exact Hnd | eapply nth_lt; exact Hq' | congruence]. }
    assert (Hsort : forall p q u v, (p < q)%nat -> nth_error aux p = Some u -> nth_error aux q = Some v -> row_before u v \/ u = v).
    { intros p q u v Hpq Hu Hv. destruct (nth_some perm p) as [i Hi]; [rewrite Hpl, <- Hal; eapply nth_lt; exact Hu|].
      destruct (nth_some perm q) as [j Hj]; [rewrite Hpl, <- Hal; eapply nth_lt; exact Hv|].
      apply (ss_nth _ _ Hs p q i j Hpq Hi Hj); [rewrite <- (Hg p i Hi); exact Hu | rewrite <- (Hg q j Hj); exact Hv]. }
    (* positions p < q *)
    assert (Hpos : forall p q u v a b, (p < q)%nat -> nth_error aux p = Some u -> nth_error aux q = Some v -> nth_error num p = Some a -> nth_error num q = Some b ->
              (a <= b)%nat /\ (a = b <-> u = v /\ complete_row u)).
    { intros p q u v a b Hpq Hu Hv Hna Hnb. replace q with (p + (q - p))%nat in Hnb by lia.
      destruct (numbers_between same_row aux (q - p) p a b Hna Hnb) as (H1 & H2 & _). split; [exact H1|]. rewrite H2. split.
      - intros H. assert (K : forall d w, (d < q - p)%nat -> nth_error aux (p + S d) = Some w -> u = w /\ complete_row u).
        { induction d as [|d IH]; intros w Hd Hw.
          - rewrite Nat.add_1_r in Hw. apply same_row_spec. apply (H p); auto. lia.
          - destruct (nth_some aux (p + S d)) as [w' Hw']; [apply nth_lt in Hw; lia|].
            destruct (IH w' ltac:(lia) Hw') as [-> Hc]. assert (S1 : same_row w' w = true).
            { apply (H (p + S d)%nat); [lia | exact Hw' |]. replace (S (p + S d)) with (p + S (S d))%nat by lia. exact Hw. }
            apply same_row_spec in S1. exact S1. }
        apply (K (q - p - 1)%nat); [lia|]. replace (p + S (q - p - 1))%nat with q by lia. exact Hv.
      - intros [-> Hc] i x y Hi Hx Hy. apply same_row_spec.
        assert (Ex : x = v).
        { destruct (Nat.eq_dec i p) as [-> |Hne]; [congruence|].
          destruct (Hsort p i v x ltac:(lia) Hu Hx) as [B1|E]; [|congruence]. destruct (Hsort i q x v ltac:(lia) Hx Hv) as [B2|E]; [|exact E].
          elim (row_before_irr v). eapply row_before_trans; eauto. }
        assert (Ey : y = v).
        { destruct (Nat.eq_dec (S i) q) as [E|Hne]; [rewrite E in Hy; congruence|].
          destruct (Hsort p (S i) v y ltac:(lia) Hu Hy) as [B1|E]; [|congruence]. destruct (Hsort (S i) q y v ltac:(lia) Hy Hv) as [B2|E]; [|exact E].
          elim (row_before_irr v). eapply row_before_trans; eauto. }
        subst. split; [reflexivity | exact Hc]. }
    split; [unfold ids; rewrite map_length, seq_length; reflexivity|]. split.
    - intros i j r s a b Hr Hsr Hia Hjb. destruct (Hid i a Hia) as (p & Hpi & Hpa). destruct (Hid j b Hjb) as (q & Hqj & Hqb).
      assert (Hu : nth_error aux p = Some r) by (rewrite (Hg p i Hpi); exact Hr).
      assert (Hv : nth_error aux q = Some s) by (rewrite (Hg q j Hqj); exact Hsr).
      destruct (Nat.lt_trichotomy p q) as [Hlt|[Heq|Hgt]].
      + destruct (Hpos p q r s a b Hlt Hu Hv Hpa Hqb) as [H1 H2].
        assert (Hij : i <> j) by (intros ->; assert (p = q); [apply (proj1 (NoDup_nth_error perm)); [exact Hnd | eapply nth_lt; exact Hpi | congruence] | lia]).
        split; [rewrite H2; tauto|]. intros Hb. assert (a <> b); [|lia]. intros E. apply H2 in E. destruct E as [-> _]. exact (row_before_irr _ Hb).
      + subst q. assert (i = j) by congruence. subst j. split; [split; [auto | intros _; congruence]|]. intros Hb.
        assert (r = s) by congruence. subst. elim (row_before_irr _ Hb).
      + destruct (Hpos q p s r b a Hgt Hv Hu Hqb Hpa) as [H1 H2].
        assert (Hij : i <> j) by (intros ->; assert (p = q); [apply (proj1 (NoDup_nth_error perm)); [exact Hnd | eapply nth_lt; exact Hpi | congruence] | lia]).
        split.
        * split; [intros E; right; symmetry in E; apply H2 in E; destruct E as [-> Hc]; auto | intros [E|[-> Hc]]; [contradiction | symmetry; apply H2; auto]].
        * intros Hb. destruct (Hsort q p s r Hgt Hv Hu) as [B|E]; [|subst; elim (row_before_irr _ Hb)].
          elim (row_before_irr r). eapply row_before_trans; eauto.
    - intros b m Hb Hm. apply In_nth_error in Hb. destruct Hb as [j Hj]. destruct (Hid j b Hj) as (q & Hqj & Hqb).
      destruct (nth_some num 0) as [z Hz]; [apply nth_lt in Hqb; lia|]. assert (z = 0%nat) by (apply (numbers_first same_row aux); exact Hz). subst z.
      destruct (numbers_between same_row aux q 0 0 b Hz Hqb) as (_ & _ & H3).
      assert (Hmn := H3 m ltac:(lia)). apply In_nth_error in Hmn. destruct Hmn as [p Hpm].
      destruct (nth_some perm p) as [i Hi]; [rewrite Hpl, <- Hnl; eapply nth_lt; exact Hpm|].
      destruct (Hids p i Hi) as (a & Hia & Hna). assert (a = m) by (unfold num in Hna; congruence). subst a. eapply nth_error_In. exact Hia.
  Qed.
End Unique.
