(** * SortLib: the concrete stable sort of Base.v is a sort; gather/compress lemmas *)
From Coq Require Import List Permutation Lia Bool Arith Sorted.
From Verif Require Import Base.
Import ListNotations.

Lemma insert_by_perm {A} (le : A -> A -> bool) x l : Permutation (x :: l) (insert_by le x l).
Proof.
  induction l as [|y t IH]; cbn; [apply Permutation_refl|]. destruct (le x y); [apply Permutation_refl|].
  eapply Permutation_trans; [apply perm_swap|]. constructor. assumption.
Qed.
Lemma isort_perm {A} (le : A -> A -> bool) l : Permutation l (isort le l).
Proof.
  induction l as [|x t IH]; cbn; [constructor|].
  eapply Permutation_trans; [|apply insert_by_perm]. constructor. assumption.
Qed.
Definition leP {A} (le : A -> A -> bool) : A -> A -> Prop := fun x y => le x y = true.
Lemma insert_by_sorted {A} (le : A -> A -> bool) x l :
  (forall a b, le a b = true \/ le b a = true) ->
  (forall a b c, le a b = true -> le b c = true -> le a c = true) ->
  StronglySorted (leP le) l -> StronglySorted (leP le) (insert_by le x l).
Proof.
  intros Ht Htr H. induction H as [|y t Hs IH Hf]; cbn; [constructor; constructor|].
  destruct (le x y) eqn:E.
  - constructor; [constructor; assumption|]. constructor; [assumption|].
    eapply Forall_impl; [|exact Hf]. intros z Hz. unfold leP in *. eapply Htr; eassumption.
  - constructor; [assumption|]. rewrite Forall_forall in *. intros z Hz.
    apply (Permutation_in _ (Permutation_sym (insert_by_perm le x t))) in Hz.
    destruct Hz as [<-|Hz]; [destruct (Ht x y); [congruence|assumption]|auto].
Qed.
Lemma isort_sorted {A} (le : A -> A -> bool) l :
  (forall a b, le a b = true \/ le b a = true) ->
  (forall a b c, le a b = true -> le b c = true -> le a c = true) ->
  StronglySorted (leP le) (isort le l).
Proof. intros Ht Htr. induction l as [|x t IH]; cbn; [constructor|]. apply insert_by_sorted; auto. Qed.

Lemma StronglySorted_impl {A} (P Q : A -> A -> Prop) l :
  (forall x y, P x y -> Q x y) -> StronglySorted P l -> StronglySorted Q l.
Proof.
  intros H S. induction S as [|x k Hs IH Hf]; constructor; [exact IH|].
  eapply Forall_impl; [|exact Hf]. intros y Hy. apply H. exact Hy.
Qed.

(** relativised to the elements of the list *)
Lemma insert_by_sorted_in {A} (le : A -> A -> bool) x l :
  (forall a b, In a (x :: l) -> In b (x :: l) -> le a b = true \/ le b a = true) ->
  (forall a b c, In a (x :: l) -> In b (x :: l) -> In c (x :: l) -> le a b = true -> le b c = true -> le a c = true) ->
  StronglySorted (leP le) l -> StronglySorted (leP le) (insert_by le x l).
Proof.
  intros Ht Htr H. induction H as [|y t Hs IH Hf]; cbn; [constructor; constructor|].
  destruct (le x y) eqn:E.
  - constructor; [constructor; assumption|]. constructor; [assumption|].
    rewrite Forall_forall in *. intros z Hz. unfold leP in *.
    apply (Htr x y z); cbn; auto; apply Hf; assumption.
  - constructor.
    + apply IH; intros; [apply Ht|eapply Htr]; cbn in *; try eassumption; intuition.
    + rewrite Forall_forall in *. intros z Hz.
      apply (Permutation_in _ (Permutation_sym (insert_by_perm le x t))) in Hz.
      destruct Hz as [<-|Hz]; [|auto].
      destruct (Ht x y) as [F|F]; cbn; auto; congruence.
Qed.
Lemma isort_sorted_in {A} (le : A -> A -> bool) l :
  (forall a b, In a l -> In b l -> le a b = true \/ le b a = true) ->
  (forall a b c, In a l -> In b l -> In c l -> le a b = true -> le b c = true -> le a c = true) ->
  StronglySorted (leP le) (isort le l).
Proof.
  induction l as [|x t IH]; intros Ht Htr; cbn; [constructor|].
  assert (P : forall a, In a (x :: isort le t) -> In a (x :: t)).
  { intros a [<-|Ha]; [left; reflexivity|right].
    eapply Permutation_in; [apply Permutation_sym, isort_perm|exact Ha]. }
  apply insert_by_sorted_in.
  - intros; apply Ht; apply P; assumption.
  - intros a b c Ha Hb Hc. apply Htr; apply P; assumption.
  - apply IH; intros; [apply Ht|eapply Htr]; try eassumption; right; assumption.
Qed.

Lemma sorted_perm_unique {A} (R : A -> A -> Prop) l1 l2 :
  (forall a b, In a l1 -> In b l1 -> R a b -> R b a -> a = b) ->
  StronglySorted R l1 -> StronglySorted R l2 -> Permutation l1 l2 -> l1 = l2.
Proof.
  intros Hanti H1. revert l2 Hanti. induction H1 as [|x t Hs IH Hf]; intros l2 Hanti H2 P.
  - apply Permutation_nil in P. auto.
  - destruct l2 as [|y u]; [apply Permutation_sym, Permutation_nil in P; discriminate|].
    inversion H2 as [|? ? Hs2 Hf2]; subst.
    assert (E : x = y).
    { assert (Iy : In y (x :: t)) by (eapply Permutation_in; [apply Permutation_sym; exact P|left; reflexivity]).
      assert (Ix : In x (y :: u)) by (eapply Permutation_in; [exact P|left; reflexivity]).
      rewrite Forall_forall in *.
      destruct Iy as [E|Iy]; [exact E|]. destruct Ix as [E|Ix]; [symmetry; exact E|].
      apply Hanti; [left; reflexivity|right; exact Iy|apply Hf; exact Iy|apply Hf2; exact Ix]. }
    subst y. f_equal. apply IH; auto.
    + intros a b Ha Hb. apply Hanti; right; assumption.
    + eapply Permutation_cons_inv; exact P.
Qed.

(** ** compress / where / gather *)
Lemma compress_map {A B} (f : A -> B) m xs : compress m (map f xs) = map f (compress m xs).
Proof. revert xs; induction m as [|b m IH]; intros [|x xs]; cbn; try reflexivity. destruct b; cbn; rewrite IH; reflexivity. Qed.
Lemma compress_filter {A} (p : A -> bool) xs : compress (map p xs) xs = filter p xs.
Proof. induction xs as [|x xs IH]; cbn; [reflexivity|]. rewrite IH. destruct (p x); reflexivity. Qed.
Lemma compress_filter_zip {A B} (p : A -> bool) (xs : list A) (ys : list B) : length xs = length ys ->
  compress (map p xs) ys = map snd (filter (fun q => p (fst q)) (zip xs ys)).
Proof.
  revert ys; induction xs as [|x xs IH]; intros [|y ys] H; cbn in *; try reflexivity; try discriminate.
  rewrite IH by lia. destruct (p x); reflexivity.
Qed.
Lemma compress_length {A} m (xs : list A) : length m = length xs ->
  length (compress m xs) = count (fun b => b) m.
Proof.
  unfold count. revert xs; induction m as [|b m IH]; intros [|x xs] H; cbn in *; try reflexivity; try discriminate.
  destruct b; cbn; rewrite IH by lia; reflexivity.
Qed.
Lemma where_from_in k m i : In i (where_from k m) <-> k <= i /\ nth_error m (i - k) = Some true.
Proof.
  revert k; induction m as [|b m IH]; intros k; cbn [where_from].
  - split; [intros []|]. intros [_ H]. destruct (i - k); discriminate.
  - destruct (Nat.eq_dec i k) as [->|Hne].
    + rewrite Nat.sub_diag. cbn. destruct b.
      * split; [intros _; split; auto|intros _; left; reflexivity].
      * rewrite IH. split; [lia|intros [_ H]; discriminate].
    + assert (E : k <= i -> nth_error (b :: m) (i - k) = nth_error m (i - S k)).
      { intros H. destruct (i - k) eqn:F; [lia|]. cbn. f_equal. lia. }
      destruct b; [cbn [In]|]; rewrite IH.
      * split.
        -- intros [H|[H1 H2]]; [congruence|]. split; [lia|]. rewrite E by lia. assumption.
        -- intros [H1 H2]. right. rewrite E in H2 by lia. split; [lia|assumption].
      * split; intros [H1 H2]; (split; [lia|]); [rewrite E by lia|rewrite <- E by lia]; assumption.
Qed.
Lemma where_idx_in m i : In i (where_idx m) <-> nth_error m i = Some true.
Proof. unfold where_idx. rewrite where_from_in, Nat.sub_0_r. split; [tauto|]. intros; split; [lia|assumption]. Qed.
Lemma where_from_sorted k m : StronglySorted lt (where_from k m).
Proof.
  revert k; induction m as [|b m IH]; intros k; cbn; [constructor|].
  destruct b; [|apply IH]. constructor; [apply IH|]. rewrite Forall_forall. intros i Hi.
  apply where_from_in in Hi. lia.
Qed.
Lemma gather_where_from {A} k m (xs pre : list A) : length m = length xs -> length pre = k ->
  gather (pre ++ xs) (where_from k m) = Ok (compress m xs).
Proof.
  revert k xs pre; induction m as [|b m IH]; intros k [|x xs] pre H Hp; cbn in *; try reflexivity; try discriminate.
  assert (E : pre ++ x :: xs = (pre ++ [x]) ++ xs) by (rewrite <- app_assoc; reflexivity).
  destruct b; cbn [gather].
  - rewrite nth_error_app2 by lia. replace (k - length pre) with 0 by lia. cbn [nth_error].
    rewrite E, IH; [reflexivity|lia|rewrite app_length; cbn; lia].
  - rewrite E, IH; [reflexivity|lia|rewrite app_length; cbn; lia].
Qed.
Lemma gather_where {A} m (xs : list A) : length m = length xs ->
  gather xs (where_idx m) = Ok (compress m xs).
Proof. intros H. apply (gather_where_from 0 m xs []); auto. Qed.
Lemma gather_ok {A} (xs : list A) idx :
  (forall i, In i idx -> i < length xs) -> exists ys, gather xs idx = Ok ys.
Proof.
  induction idx as [|i t IH]; intros H; [exists []; reflexivity|]. cbn.
  destruct (nth_error xs i) as [x|] eqn:E.
  - destruct IH as (ys & ->); [intros; apply H; right; assumption|]. exists (x :: ys). reflexivity.
  - apply nth_error_None in E. specialize (H i (or_introl eq_refl)). lia.
Qed.
Lemma gather_spec {A} (xs : list A) idx ys : gather xs idx = Ok ys <->
  Forall2 (fun i y => nth_error xs i = Some y) idx ys.
Proof.
  revert ys; induction idx as [|i t IH]; intros ys; cbn.
  - split; [intros H; injection H as <-; constructor|intros H; inversion H; reflexivity].
  - destruct (nth_error xs i) as [x|] eqn:E.
    + destruct (gather xs t) as [r|e] eqn:G; cbn [rbind].
      * split; [intros H; injection H as <-; constructor; [assumption|apply IH; reflexivity]|].
        intros H. inversion H as [|? y ? ys' H1 H2]; subst. apply IH in H2. injection H2 as ->. congruence.
      * split; [discriminate|]. intros H. inversion H as [|? y ? ys' H1 H2]; subst. apply IH in H2. discriminate.
    + split; [discriminate|]. intros H. inversion H; subst. congruence.
Qed.
Lemma gather_length {A} (xs : list A) idx ys : gather xs idx = Ok ys -> length ys = length idx.
Proof. intros H. apply gather_spec in H. induction H; cbn; auto. Qed.
Lemma gather_err {A} (xs : list A) idx e : gather xs idx = Err e -> e = IndexError.
Proof.
  induction idx as [|i t IH]; cbn; [discriminate|]. destruct (nth_error xs i); [|congruence].
  destruct (gather xs t); cbn; [discriminate|]. intros E; injection E as <-. auto.
Qed.
Lemma gather_map {A B} (f : A -> B) xs idx : gather (map f xs) idx = rmap (map f) (gather xs idx).
Proof.
  induction idx as [|i t IH]; [reflexivity|]. cbn. rewrite nth_error_map.
  destruct (nth_error xs i); cbn; [|reflexivity]. rewrite IH. destruct (gather xs t); reflexivity.
Qed.
Lemma StronglySorted_impl_in {A} (P Q : A -> A -> Prop) l :
  (forall x y, In x l -> In y l -> P x y -> Q x y) -> StronglySorted P l -> StronglySorted Q l.
Proof.
  intros H S. induction S as [|x k Hs IH Hf]; constructor; [apply IH; intros a b Ha Hb; apply H; right; assumption|].
  rewrite Forall_forall in *. intros y Hy. apply H; [left; reflexivity | right; exact Hy | apply Hf; exact Hy].
Qed.
