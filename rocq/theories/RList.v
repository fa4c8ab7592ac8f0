(** * RList: facts about sums, minima and maxima of lists of reals *)
From Coq Require Import Reals Lra List Permutation Lia Bool ZArith.
From Verif Require Import Base Num XR.
Import ListNotations.
Open Scope R_scope.

Lemma Rsum_app l1 l2 : Rsum (l1 ++ l2) = Rsum l1 + Rsum l2.
Proof. unfold Rsum. induction l1 as [|a l IH]; cbn [app fold_right]; [lra|]. rewrite IH; lra. Qed.
Lemma Rsum_cons a l : Rsum (a :: l) = a + Rsum l.
Proof. reflexivity. Qed.
Lemma Rsum_perm l1 l2 : Permutation l1 l2 -> Rsum l1 = Rsum l2.
Proof. induction 1; rewrite ?Rsum_cons in *; lra. Qed.
Lemma Rsum_map_plus {A} (f g : A -> R) l :
  Rsum (map (fun x => f x + g x) l) = Rsum (map f l) + Rsum (map g l).
Proof. induction l as [|a l IH]; cbn; [lra|]. fold (Rsum (map (fun x => f x + g x) l)). rewrite IH. unfold Rsum. lra. Qed.
Lemma Rsum_map_scal {A} c (f : A -> R) l : Rsum (map (fun x => c * f x) l) = c * Rsum (map f l).
Proof. induction l as [|a l IH]; cbn [map]; rewrite ?Rsum_cons; [unfold Rsum; cbn; lra|]. rewrite IH; lra. Qed.
Lemma Rsum_map_const {A} c (l : list A) : Rsum (map (fun _ => c) l) = INR (length l) * c.
Proof.
  induction l as [|a l IH]; cbn [map]; rewrite ?Rsum_cons; [unfold Rsum; cbn; lra|].
  rewrite IH. cbn [length]. rewrite S_INR. lra.
Qed.
Lemma Rsum_map_ext {A} (f g : A -> R) l : (forall x, In x l -> f x = g x) -> Rsum (map f l) = Rsum (map g l).
Proof. intros H. f_equal. apply map_ext_in. exact H. Qed.
Lemma Rsum_nonneg l : (forall x, In x l -> 0 <= x) -> 0 <= Rsum l.
Proof.
  induction l as [|a l IH]; intros H; [unfold Rsum; cbn; lra|]. rewrite Rsum_cons.
  assert (0 <= a) by (apply H; left; reflexivity).
  assert (0 <= Rsum l) by (apply IH; intros; apply H; right; assumption). lra.
Qed.
Lemma Rsum_map_le {A} (f g : A -> R) l : (forall x, In x l -> f x <= g x) -> Rsum (map f l) <= Rsum (map g l).
Proof.
  induction l as [|a l IH]; intros H; cbn [map]; [lra|]. rewrite !Rsum_cons.
  assert (f a <= g a) by (apply H; left; reflexivity).
  assert (Rsum (map f l) <= Rsum (map g l)) by (apply IH; intros; apply H; right; assumption). lra.
Qed.
Lemma Rsum_zero_all l : (forall x, In x l -> 0 <= x) -> Rsum l = 0 -> forall x, In x l -> x = 0.
Proof.
  induction l as [|a l IH]; intros H E x Hx; [destruct Hx|]. rewrite Rsum_cons in E.
  assert (0 <= a) by (apply H; left; reflexivity).
  assert (Hl : forall y, In y l -> 0 <= y) by (intros; apply H; right; assumption).
  pose proof (Rsum_nonneg l Hl). destruct Hx as [<-|Hx]; [lra|]. apply IH; auto; lra.
Qed.
Lemma Rsum_pos_nonempty l : l <> [] -> (forall x, In x l -> 0 < x) -> 0 < Rsum l.
Proof.
  destruct l as [|a l]; [congruence|]. intros _ H. rewrite Rsum_cons.
  assert (0 < a) by (apply H; left; reflexivity).
  assert (0 <= Rsum l) by (apply Rsum_nonneg; intros; left; apply H; right; assumption). lra.
Qed.
Lemma Rsum_filter_split {A} (p : A -> bool) (f : A -> R) l :
  Rsum (map f l) = Rsum (map f (filter p l)) + Rsum (map f (filter (fun x => negb (p x)) l)).
Proof.
  induction l as [|a l IH]; cbn [map filter]; [unfold Rsum; cbn; lra|].
  destruct (p a); cbn [map negb]; rewrite !Rsum_cons, IH; lra.
Qed.

(** minima and maxima *)
Lemma Rminl_le x l y : In y (x :: l) -> Rminl x l <= y.
Proof.
  unfold Rminl. revert x y. induction l as [|a l IH]; intros x y H; cbn [fold_left].
  - destruct H as [<-|[]]; lra.
  - destruct H as [<-|[<-|H]].
    + eapply Rle_trans; [apply IH; left; reflexivity|apply Rmin_l].
    + eapply Rle_trans; [apply IH; left; reflexivity|apply Rmin_r].
    + apply IH; right; assumption.
Qed.
Lemma Rminl_in x l : In (Rminl x l) (x :: l).
Proof.
  unfold Rminl. revert x. induction l as [|a l IH]; intros x; cbn [fold_left]; [left; reflexivity|].
  specialize (IH (Rmin x a)). destruct IH as [E|H]; [|right; right; assumption].
  rewrite <- E. unfold Rmin. destruct (Rle_dec x a); [left|right; left]; reflexivity.
Qed.
Lemma Rmaxl_ge x l y : In y (x :: l) -> y <= Rmaxl x l.
Proof.
  unfold Rmaxl. revert x y. induction l as [|a l IH]; intros x y H; cbn [fold_left].
  - destruct H as [<-|[]]; lra.
  - destruct H as [<-|[<-|H]].
    + eapply Rle_trans; [apply Rmax_l|apply IH; left; reflexivity].
    + eapply Rle_trans; [apply Rmax_r|apply IH; left; reflexivity].
    + apply IH; right; assumption.
Qed.
Lemma Rmaxl_in x l : In (Rmaxl x l) (x :: l).
Proof.
  unfold Rmaxl. revert x. induction l as [|a l IH]; intros x; cbn [fold_left]; [left; reflexivity|].
  specialize (IH (Rmax x a)). destruct IH as [E|H]; [|right; right; assumption].
  rewrite <- E. unfold Rmax. destruct (Rle_dec x a); [right; left|left]; reflexivity.
Qed.
(** the minimum only depends on the set of elements *)
Lemma Rminl_ext x l y k : (forall v, In v (x :: l) <-> In v (y :: k)) -> Rminl x l = Rminl y k.
Proof.
  intros H. apply Rle_antisym; apply Rminl_le; apply H; apply Rminl_in.
Qed.
Lemma Rmaxl_ext x l y k : (forall v, In v (x :: l) <-> In v (y :: k)) -> Rmaxl x l = Rmaxl y k.
Proof.
  intros H. apply Rle_antisym; apply Rmaxl_ge; apply H; apply Rmaxl_in.
Qed.

(** filters, zips *)
Lemma filter_map_swap {A B} (f : A -> B) (p : B -> bool) l :
  filter p (map f l) = map f (filter (fun x => p (f x)) l).
Proof. induction l as [|a l IH]; cbn; [reflexivity|]. destruct (p (f a)); cbn; rewrite IH; reflexivity. Qed.
Lemma filter_ext_in' {A} (p q : A -> bool) l : (forall x, In x l -> p x = q x) -> filter p l = filter q l.
Proof. apply filter_ext_in. Qed.
Lemma zip_length {A B} (xs : list A) (ys : list B) : length (zip xs ys) = Nat.min (length xs) (length ys).
Proof. revert ys; induction xs as [|x xs IH]; intros [|y ys]; cbn; try reflexivity. rewrite IH. reflexivity. Qed.
Lemma zip_map {A B C D} (f : A -> C) (g : B -> D) xs ys :
  zip (map f xs) (map g ys) = map (fun p => (f (fst p), g (snd p))) (zip xs ys).
Proof. revert ys; induction xs as [|x xs IH]; intros [|y ys]; cbn; try reflexivity. rewrite IH. reflexivity. Qed.
Lemma map_fst_zip {A B} (xs : list A) (ys : list B) : length xs = length ys -> map fst (zip xs ys) = xs.
Proof.
  revert ys; induction xs as [|x xs IH]; intros [|y ys]; cbn; intros H; try reflexivity; try discriminate.
  f_equal. apply IH. lia.
Qed.
Lemma map_snd_zip {A B} (xs : list A) (ys : list B) : length xs = length ys -> map snd (zip xs ys) = ys.
Proof.
  revert ys; induction xs as [|x xs IH]; intros [|y ys]; cbn; intros H; try reflexivity; try discriminate.
  f_equal. apply IH. lia.
Qed.
Lemma zip_in_l {A B} (xs : list A) (ys : list B) p : In p (zip xs ys) -> In (fst p) xs.
Proof. revert ys; induction xs as [|x xs IH]; intros [|y ys]; cbn; try tauto. intros [<-|H]; [left; reflexivity|right; eauto]. Qed.
Lemma zip_in_r {A B} (xs : list A) (ys : list B) p : In p (zip xs ys) -> In (snd p) ys.
Proof. revert ys; induction xs as [|x xs IH]; intros [|y ys]; cbn; try tauto. intros [<-|H]; [left; reflexivity|right; eauto]. Qed.
Lemma Forall2_map_both {A B C D} (P : C -> D -> Prop) (f : A -> C) (g : B -> D) xs ys :
  Forall2 (fun x y => P (f x) (g y)) xs ys -> Forall2 P (map f xs) (map g ys).
Proof. induction 1; cbn; constructor; auto. Qed.
Lemma Forall2_map_r {A B} (P : A -> B -> Prop) (f : A -> B) xs :
  (forall x, In x xs -> P x (f x)) -> Forall2 P xs (map f xs).
Proof.
  induction xs as [|x xs IH]; intros H; cbn; constructor.
  - apply H; left; reflexivity.
  - apply IH; intros; apply H; right; assumption.
Qed.
Lemma filter_true {A} (l : list A) : filter (fun _ => true) l = l.
Proof. induction l as [|a l IH]; cbn; [reflexivity|]. rewrite IH; reflexivity. Qed.
Lemma filter_perm {A} (p : A -> bool) l1 l2 : Permutation l1 l2 -> Permutation (filter p l1) (filter p l2).
Proof.
  induction 1; cbn.
  - constructor.
  - destruct (p x); [constructor|]; assumption.
  - destruct (p x), (p y); try constructor; apply Permutation_refl.
  - eapply Permutation_trans; eassumption.
Qed.

Lemma filter_length_le' {A} (p : A -> bool) l : (List.length (filter p l) <= List.length l)%nat.
Proof. induction l as [|x l IH]; cbn; [lia|]. destruct (p x); cbn; lia. Qed.

Lemma skipn_skipn' {A} a b (l : list A) : skipn a (skipn b l) = skipn (b + a) l.
Proof. revert l. induction b as [|b IH]; intros l; [reflexivity|]. destruct l; cbn; [apply skipn_nil|]. apply IH. Qed.
