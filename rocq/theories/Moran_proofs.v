(** * Lemmas on Moran's I *)
From Coq Require Import ZArith List Bool Lia Reals Lra Permutation Sorted.
From Verif Require Import Base Num XR RList SortLib BValue_model AValue_model BSig_model Spec_BSig.
Import ListNotations.
Local Open Scope R_scope.

Definition sumn (n : nat) (f : nat -> R) : R := Rsum (map f (seq 0 n)).
Lemma sumn_ext n f g : (forall i, (i < n)%nat -> f i = g i) -> sumn n f = sumn n g.
Proof. intros H. apply Rsum_map_ext. intros i Hi. apply H. apply in_seq in Hi. lia. Qed.
Lemma sumn_zero n : sumn n (fun _ => 0) = 0.
Proof. unfold sumn. rewrite Rsum_map_const. ring. Qed.
Lemma sumn_0 n f : (forall i, (i < n)%nat -> f i = 0) -> sumn n f = 0.
Proof. intros H. rewrite (sumn_ext n f (fun _ => 0)) by exact H. apply sumn_zero. Qed.
Lemma sumn_plus n f g : sumn n (fun i => f i + g i) = sumn n f + sumn n g.
Proof. apply Rsum_map_plus. Qed.
Lemma sumn_scal n c f : sumn n (fun i => c * f i) = c * sumn n f.
Proof. apply Rsum_map_scal. Qed.
Lemma sumn_S n f : sumn (S n) f = sumn n f + f n.
Proof. unfold sumn. rewrite <- Nat.add_1_r, seq_app, map_app, Rsum_app. cbn. ring. Qed.
Lemma sumn_swap n k f : sumn n (fun i => sumn k (fun j => f i j)) = sumn k (fun j => sumn n (fun i => f i j)).
Proof.
  induction n as [|n IH].
  - change (0 = sumn k (fun j => 0)). rewrite sumn_zero. reflexivity.
  - rewrite sumn_S, IH, <- sumn_plus. apply sumn_ext. intros j _. rewrite sumn_S. reflexivity.
Qed.
Lemma Rsum_flat_map {A B} (g : B -> R) (f : A -> list B) l : Rsum (map g (flat_map f l)) = Rsum (map (fun x => Rsum (map g (f x))) l).
Proof. induction l as [|x l IH]; [reflexivity|]. cbn [flat_map map]. rewrite map_app, Rsum_app, Rsum_cons, IH. reflexivity. Qed.
Lemma map_seq_ext {B} (f g : nat -> B) n : (forall i, (i < n)%nat -> f i = g i) -> map f (seq 0 n) = map g (seq 0 n).
Proof. intros H. apply map_ext_in. intros i Hi. apply in_seq in Hi. apply H. lia. Qed.
Lemma flat_map_seq_ext {B} (f g : nat -> list B) n : (forall i, (i < n)%nat -> f i = g i) -> flat_map f (seq 0 n) = flat_map g (seq 0 n).
Proof. intros H. rewrite !flat_map_concat_map. f_equal. apply map_seq_ext. exact H. Qed.
Lemma map_nth_seq' {A B} (f : A -> B) (l : list A) d : map (fun i => f (nth i l d)) (seq 0 (length l)) = map f l.
Proof.
  induction l as [|x l IH]; [reflexivity|]. cbn [length seq map nth]. f_equal. rewrite <- seq_shift, map_map. exact IH.
Qed.
Lemma map2_seq {A B C} (f : A -> B -> C) (g : nat -> A) (h : nat -> B) l : map2 f (map g l) (map h l) = map (fun i => f (g i) (h i)) l.
Proof. induction l; cbn; [reflexivity|]. f_equal. assumption. Qed.

(** matrices with finite entries *)
Definition fin_mat (n : nat) (M : mat xr) (e : nat -> nat -> R) : Prop :=
  rows M = n /\ cols M = n /\ forall i j, (i < n)%nat -> (j < n)%nat -> entry M i j = Fin (e i j).
Lemma entries_fin n M e : fin_mat n M e -> entries M = map Fin (flat_map (fun i => map (e i) (seq 0 n)) (seq 0 n)).
Proof.
  intros (R1 & C1 & E). unfold entries. rewrite R1, C1. rewrite flat_map_concat_map, flat_map_concat_map, concat_map, map_map. f_equal.
  apply map_seq_ext. intros i Hi. rewrite map_map. apply map_seq_ext. intros j Hj. apply E; assumption.
Qed.
Lemma msum_fin n M e : fin_mat n M e -> msum M = Fin (sumn n (fun i => sumn n (fun j => e i j))).
Proof.
  intros H. unfold msum. rewrite (entries_fin n M e H), x_sum. f_equal.
  pose proof (Rsum_flat_map (fun x => x) (fun i => map (e i) (seq 0 n)) (seq 0 n)) as E. rewrite map_id in E. rewrite E.
  apply Rsum_map_ext. intros i _. rewrite map_map. reflexivity.
Qed.
Lemma dot_fin l (f g : nat -> R) : dot (map (fun i => Fin (f i)) l) (map (fun i => Fin (g i)) l) = Fin (Rsum (map (fun i => f i * g i) l)).
Proof.
  unfold dot. rewrite map2_seq. rewrite <- x_sum, map_map. f_equal.
Qed.
Lemma quad_fin n M e d : fin_mat n M e -> quad (map (fun i => Fin (d i)) (seq 0 n)) M = Fin (sumn n (fun i => sumn n (fun j => e i j * (d i * d j)))).
Proof.
  intros (R1 & C1 & E). unfold quad. rewrite R1, C1.
  rewrite (map_seq_ext (fun j => dot _ _) (fun j => Fin (sumn n (fun i => d i * e i j)))).
  2:{ intros j Hj. rewrite (map_seq_ext (fun i => entry M i j) (fun i => Fin (e i j))) by (intros i Hi; apply E; assumption). apply dot_fin. }
  rewrite dot_fin. f_equal. rewrite sumn_swap. apply sumn_ext. intros j _. rewrite Rmult_comm, <- sumn_scal. apply sumn_ext. intros i _. ring.
Qed.

Section Run.
  Variable vs : list (option R).
  Let n := length vs.
  Definition pres (i : nat) : bool := match nth i vs None with Some _ => true | None => false end.
  Definition dv (m : R) (i : nat) : R := match nth i vs None with Some x => x - m | None => 0 end.
  Definition valid_of (l : list (option R)) : list bool := map (fun v => negb (nisnan v)) (map ov l).
  Lemma valid_seq : valid_of vs = map pres (seq 0 n).
  Proof.
    unfold valid_of. rewrite map_map. unfold n. rewrite <- (map_nth_seq' _ vs None). apply map_ext. intros i. unfold pres. destruct (nth i vs None); reflexivity.
  Qed.
  Lemma compress_known : compress (valid_of vs) (map ov vs) = map Fin (known vs).
  Proof. clear n. unfold valid_of, known. induction vs as [|[x|] l IH]; [reflexivity| |exact IH]. cbn in *. f_equal. exact IH. Qed.
  Lemma count_known : count (fun b : bool => b) (valid_of vs) = length (known vs).
  Proof. clear n. unfold valid_of, known, count. induction vs as [|[x|] l IH]; [reflexivity| |exact IH]. cbn in *. f_equal. exact IH. Qed.
  Lemma deviations_seq m : map2 (fun (b : bool) v => if b then nsub v (Fin m) else zero) (valid_of vs) (map ov vs) = map (fun i => Fin (dv m i)) (seq 0 n).
  Proof.
    rewrite valid_seq. rewrite <- (map_nth_seq' ov vs None). fold n. rewrite map2_seq. apply map_ext. intros i. unfold pres, dv. destruct (nth i vs None); reflexivity.
  Qed.
  Lemma dev2_sum m : sumn n (fun i => dv m i * dv m i) = dev2 m vs.
  Proof.
    unfold dev2, known. rewrite Rsum_flat_map. unfold sumn, n. rewrite <- (map_nth_seq' _ vs None). apply Rsum_map_ext. intros i _. unfold dv.
    destruct (nth i vs None); cbn; unfold Rsum; cbn; ring.
  Qed.
  Variable a : nat -> nat -> bool.
  Definition masked (i j : nat) : R := if pres i && pres j then (if a i j then 1 else 0) else 0.
  Lemma pairs_sum (g : R * R -> R) : Rsum (map g (known_pairs a vs)) =
    sumn n (fun i => sumn n (fun j => if a i j then match nth i vs None, nth j vs None with Some x, Some y => g (x, y) | _, _ => 0 end else 0)).
  Proof.
    unfold known_pairs. fold n. rewrite Rsum_flat_map. apply sumn_ext. intros i _. rewrite Rsum_flat_map. apply sumn_ext. intros j _.
    destruct (a i j); [|reflexivity]. destruct (nth i vs None), (nth j vs None); try reflexivity. cbn. unfold Rsum; cbn. ring.
  Qed.
  Lemma masked_sum : sumn n (fun i => sumn n (fun j => masked i j)) = INR (length (known_pairs a vs)).
  Proof.
    transitivity (Rsum (map (fun _ : R * R => 1) (known_pairs a vs))); [|rewrite Rsum_map_const; ring]. rewrite pairs_sum.
    apply sumn_ext. intros i _. apply sumn_ext. intros j _. unfold masked, pres. destruct (nth i vs None), (nth j vs None), (a i j); reflexivity.
  Qed.
  Lemma devprod_sum m : sumn n (fun i => sumn n (fun j => masked i j * (dv m i * dv m j))) = devprod m a vs.
  Proof.
    unfold devprod. rewrite pairs_sum. apply sumn_ext. intros i _. apply sumn_ext. intros j _. unfold masked, pres, dv. cbn [fst snd].
    destruct (nth i vs None), (nth j vs None), (a i j); cbn; ring.
  Qed.

  (** the result of est_morans_i for a prepared matrix *)
  Definition moran_result (m : R) : xr * nat * xr :=
    (ndiv (nmul (ndiv (Fin (INR (length (known vs)) - 1)) (Fin (INR (length (known_pairs a vs))))) (Fin (devprod m a vs))) (Fin (dev2 m vs)),
     length (known vs), Fin (INR (length (known_pairs a vs)))).
  Lemma moran_core M mean_v m : fin_mat n M (fun i j => if a i j then 1 else 0) ->
    (match mean_v with None => nmean (compress (valid_of vs) (map ov vs)) | Some m => m end) = Fin m ->
    (let? w := mask_w (valid_of vs) M in
      let deviations := map2 (fun (b : bool) v => if b then nsub v (match mean_v with None => nmean (compress (valid_of vs) (map ov vs)) | Some m => m end) else zero) (valid_of vs) (map ov vs) in
      let ac := quad deviations w in
      let ac_0 := dot deviations deviations in
      let n_p := msum w in
      let n := count (fun b : bool => b) (valid_of vs) in
      Ok (ndiv (nmul (ndiv (ofZ (Z.of_nat n - 1)) n_p) ac) ac_0, n, n_p)) = Ok (moran_result m).
  Proof.
    intros (R1 & C1 & E) Hm. unfold mask_w. assert (Lv : length (valid_of vs) = n) by (unfold valid_of; rewrite !map_length; reflexivity).
    rewrite Lv, R1, C1, Nat.eqb_refl. cbn [andb rbind]. set (M' := mkmat n n _). rewrite Hm.
    assert (F : fin_mat n M' masked).
    { split; [reflexivity|]. split; [reflexivity|]. intros i j Hi Hj. unfold M'; cbn [entry]. rewrite valid_seq.
      assert (Nv : forall k, (k < n)%nat -> nth k (map pres (seq 0 n)) false = pres k).
      { intros k Hk. rewrite (nth_indep _ false (pres 0)) by (rewrite map_length, seq_length; exact Hk). rewrite map_nth, seq_nth by exact Hk. reflexivity. }
      rewrite !Nv by assumption. unfold masked. destruct (pres i && pres j); [apply E; assumption|reflexivity]. }
    cbv zeta. rewrite deviations_seq, (quad_fin n M' masked _ F), (msum_fin n M' masked F), dot_fin. fold (sumn n (fun i => dv m i * dv m i)).
    rewrite dev2_sum, masked_sum, devprod_sum, count_known, x_ofZ. unfold moran_result. rewrite minus_IZR, <- INR_IZR_INZ. reflexivity.
  Qed.
End Run.

(** ** the checks of the matrix *)
Definition ordered_rel (a : nat -> nat -> bool) : Prop := forall i j, a i j = true -> (i < j)%nat.
Definition b2r (b : bool) : R := if b then 1 else 0.
Lemma fin_sum_zero n e : (forall i j, 0 <= e i j) -> sumn n (fun i => sumn n (fun j => e i j)) = 0 -> forall i j, (i < n)%nat -> (j < n)%nat -> e i j = 0.
Proof.
  intros Hp H i j Hi Hj.
  assert (Z : sumn n (fun j => e i j) = 0).
  { apply (Rsum_zero_all _) with (x := sumn n (fun j => e i j)) in H; [exact H| |].
    - intros x Hx. apply in_map_iff in Hx. destruct Hx as (k & <- & _). apply Rsum_nonneg. intros y Hy. apply in_map_iff in Hy. destruct Hy as (k' & <- & _). apply Hp.
    - apply in_map_iff. exists i. split; [reflexivity|apply in_seq; lia]. }
  apply (Rsum_zero_all _) with (x := e i j) in Z; [exact Z| |].
  - intros x Hx. apply in_map_iff in Hx. destruct Hx as (k & <- & _). apply Hp.
  - apply in_map_iff. exists j. split; [reflexivity|apply in_seq; lia].
Qed.
Lemma diag_zero n M e : fin_mat n M e -> (forall i, (i < n)%nat -> e i i = 0) -> nsum (diagonal M) = Fin 0.
Proof.
  intros (R1 & C1 & E) H. unfold diagonal. rewrite R1, C1, Nat.min_id.
  rewrite (map_seq_ext (fun i => entry M i i) (fun i => Fin 0)) by (intros i Hi; rewrite E, H by assumption; reflexivity).
  change (map (fun _ => Fin 0) (seq 0 n)) with (map (fun x => Fin ((fun _ : nat => 0) x)) (seq 0 n)). rewrite <- (map_map (fun _ : nat => 0) Fin), x_sum, Rsum_map_const. f_equal. ring.
Qed.
Lemma zero_one_fin n M (b : nat -> nat -> bool) : fin_mat n M (fun i j => b2r (b i j)) -> zero_one M = true.
Proof.
  intros F. unfold zero_one. rewrite (entries_fin n M _ F). apply forallb_forall. intros x Hx. apply in_map_iff in Hx. destruct Hx as (r & <- & Hr).
  apply in_flat_map in Hr. destruct Hr as (i & _ & Hr). apply in_map_iff in Hr. destruct Hr as (j & <- & _). unfold b2r. destruct (b i j).
  - change (req 1 0 || req 1 1 = true)%bool. rewrite (proj2 (req_true 1 1) eq_refl). apply orb_true_r.
  - change (req 0 0 || req 0 1 = true)%bool. rewrite (proj2 (req_true 0 0) eq_refl). reflexivity.
Qed.
Lemma is_zero_fin r : is_zero (Fin r) = req r 0.
Proof. reflexivity. Qed.

Section Prep.
  Variables (n : nat) (a : nat -> nat -> bool).
  Hypothesis Ha : ordered_rel a.
  Definition wt := sumn n (fun i => sumn n (fun j => b2r (a i j))).
  Lemma a_diag i : a i i = false.
  Proof. destruct (a i i) eqn:E; [|reflexivity]. apply Ha in E. lia. Qed.
  Lemma a_anti i j : a i j = true -> a j i = false.
  Proof. intros H. destruct (a j i) eqn:E; [|reflexivity]. apply Ha in E. apply Ha in H. lia. Qed.
  Lemma wt_zero : wt = 0 -> forall i j, (i < n)%nat -> (j < n)%nat -> a i j = false.
  Proof.
    intros H i j Hi Hj. pose proof (fin_sum_zero n (fun i j => b2r (a i j)) ltac:(intros; unfold b2r; destruct (a _ _); lra) H i j Hi Hj) as E.
    cbv beta in E. unfold b2r in E. destruct (a i j); [lra|reflexivity].
  Qed.
  Lemma fin_upper : fin_mat n (upper n a) (fun i j => b2r (a i j)).
  Proof. split; [reflexivity|]. split; [reflexivity|]. intros i j _ _. cbn. unfold b2r. destruct (a i j); reflexivity. Qed.
  Lemma fin_lower : fin_mat n (lower n a) (fun i j => b2r (a j i)).
  Proof. split; [reflexivity|]. split; [reflexivity|]. intros i j _ _. cbn. unfold b2r. destruct (a j i); reflexivity. Qed.
  Lemma fin_both : fin_mat n (both n a) (fun i j => b2r (a i j || a j i)).
  Proof. split; [reflexivity|]. split; [reflexivity|]. intros i j _ _. cbn. unfold b2r. destruct (a i j || a j i); reflexivity. Qed.
  Lemma fin_tril M e : fin_mat n M e -> fin_mat n (tril M) (fun i j => if (j <=? i)%nat then e i j else 0).
  Proof. intros (R1 & C1 & E). split; [exact R1|]. split; [exact C1|]. intros i j Hi Hj. cbn. destruct (j <=? i)%nat; [apply E; assumption|reflexivity]. Qed.
  Lemma fin_triu M e : fin_mat n M e -> fin_mat n (triu M) (fun i j => if (i <=? j)%nat then e i j else 0).
  Proof. intros (R1 & C1 & E). split; [exact R1|]. split; [exact C1|]. intros i j Hi Hj. cbn. destruct (i <=? j)%nat; [apply E; assumption|reflexivity]. Qed.
  Lemma fin_transpose M e : fin_mat n M e -> fin_mat n (transpose M) (fun i j => e j i).
  Proof. intros (R1 & C1 & E). split; [exact C1|]. split; [exact R1|]. intros i j Hi Hj. apply E; assumption. Qed.
  Lemma fin_ext M e e' : fin_mat n M e -> (forall i j, (i < n)%nat -> (j < n)%nat -> e i j = e' i j) -> fin_mat n M e'.
  Proof. intros (R1 & C1 & E) H. split; [exact R1|]. split; [exact C1|]. intros i j Hi Hj. rewrite E, H by assumption. reflexivity. Qed.

  Definition prepared (M : mat xr) : Prop := exists M', prepare_w M = Ok M' /\ fin_mat n M' (fun i j => if a i j then 1 else 0).

  Lemma prep_upper : prepared (upper n a).
  Proof.
    unfold prepared, prepare_w. cbn [rows cols upper]. rewrite Nat.eqb_refl. cbn [negb]. fold (upper n a).
    rewrite (diag_zero n (upper n a) _ fin_upper) by (intros i _; rewrite a_diag; reflexivity). rewrite is_zero_fin, (proj2 (req_true 0 0) eq_refl).
    assert (Tl : msum (tril (upper n a)) = Fin 0).
    { rewrite (msum_fin n _ _ (fin_tril _ _ fin_upper)). f_equal. apply sumn_0. intros i _. apply sumn_0. intros j _.
      destruct (Nat.leb_spec j i); [|reflexivity]. destruct (a i j) eqn:E; [apply Ha in E; lia|reflexivity]. }
    rewrite Tl, is_zero_fin, (proj2 (req_true 0 0) eq_refl). cbn [negb andb].
    assert (Tu : msum (triu (upper n a)) = Fin wt).
    { rewrite (msum_fin n _ _ (fin_triu _ _ fin_upper)). f_equal. apply sumn_ext. intros i _. apply sumn_ext. intros j _.
      destruct (Nat.leb_spec i j); [reflexivity|]. destruct (a i j) eqn:E; [apply Ha in E; lia|reflexivity]. }
    rewrite Tu, is_zero_fin. destruct (req wt 0) eqn:Ew; cbn [rbind].
    - apply req_true in Ew. pose proof (wt_zero Ew) as Z.
      rewrite (zero_one_fin n _ _ (fin_transpose _ _ fin_upper)). eexists. split; [reflexivity|].
      apply (fin_ext _ _ _ (fin_transpose _ _ fin_upper)). intros i j Hi Hj. rewrite !Z by assumption. reflexivity.
    - rewrite (zero_one_fin n _ _ fin_upper). eexists. split; [reflexivity|]. exact fin_upper.
  Qed.
  Lemma prep_lower : prepared (lower n a).
  Proof.
    unfold prepared, prepare_w. cbn [rows cols lower]. rewrite Nat.eqb_refl. cbn [negb]. fold (lower n a).
    rewrite (diag_zero n (lower n a) _ fin_lower) by (intros i _; rewrite a_diag; reflexivity). rewrite is_zero_fin, (proj2 (req_true 0 0) eq_refl).
    assert (Tu : msum (triu (lower n a)) = Fin 0).
    { rewrite (msum_fin n _ _ (fin_triu _ _ fin_lower)). f_equal. apply sumn_0. intros i _. apply sumn_0. intros j _.
      destruct (Nat.leb_spec i j); [|reflexivity]. destruct (a j i) eqn:E; [apply Ha in E; lia|reflexivity]. }
    rewrite Tu, is_zero_fin, (proj2 (req_true 0 0) eq_refl). cbn [negb]. rewrite andb_false_r. cbn [rbind].
    rewrite (zero_one_fin n _ _ (fin_transpose _ _ fin_lower)). eexists. split; [reflexivity|]. exact (fin_transpose _ _ fin_lower).
  Qed.
  Lemma prep_both : prepared (both n a).
  Proof.
    unfold prepared, prepare_w. cbn [rows cols both]. rewrite Nat.eqb_refl. cbn [negb]. fold (both n a).
    rewrite (diag_zero n (both n a) _ fin_both) by (intros i _; rewrite a_diag; reflexivity). rewrite is_zero_fin, (proj2 (req_true 0 0) eq_refl).
    assert (Tu : msum (triu (both n a)) = Fin wt).
    { rewrite (msum_fin n _ _ (fin_triu _ _ fin_both)). f_equal. apply sumn_ext. intros i _. apply sumn_ext. intros j _.
      destruct (Nat.leb_spec i j); [|destruct (a i j) eqn:E; [apply Ha in E; lia|reflexivity]].
      destruct (a j i) eqn:E; [|rewrite orb_false_r; reflexivity]. apply Ha in E. lia. }
    assert (Tl : msum (tril (both n a)) = Fin wt).
    { rewrite (msum_fin n _ _ (fin_tril _ _ fin_both)). f_equal. unfold wt. rewrite sumn_swap. apply sumn_ext. intros j _. apply sumn_ext. intros i _.
      destruct (Nat.leb_spec j i); [|destruct (a j i) eqn:E; [|reflexivity]].
      - destruct (a i j) eqn:E; [apply Ha in E; lia|reflexivity].
      - exfalso. apply Ha in E. lia. }
    rewrite Tl, Tu, is_zero_fin. destruct (req wt 0) eqn:Ew; cbn [negb andb rbind].
    - apply req_true in Ew. pose proof (wt_zero Ew) as Z.
      rewrite (zero_one_fin n _ _ (fin_transpose _ _ fin_both)). eexists. split; [reflexivity|].
      apply (fin_ext _ _ _ (fin_transpose _ _ fin_both)). intros i j Hi Hj. rewrite !Z by assumption. reflexivity.
    - assert (Sy : symmetric (both n a) = true).
      { unfold symmetric. apply forallb_forall. intros i _. apply forallb_forall. intros j _. cbn [entry both]. rewrite (orb_comm (a j i)).
        destruct (a i j || a j i); apply req_true; reflexivity. }
      rewrite Sy. cbn [rbind].
      assert (F : fin_mat n (triu (both n a)) (fun i j => b2r (a i j))).
      { apply (fin_ext _ _ _ (fin_triu _ _ fin_both)). intros i j _ _. destruct (Nat.leb_spec i j).
        - destruct (a j i) eqn:E; [apply Ha in E; lia|rewrite orb_false_r; reflexivity].
        - destruct (a i j) eqn:E; [apply Ha in E; lia|reflexivity]. }
      rewrite (zero_one_fin n _ _ F). eexists. split; [reflexivity|]. exact F.
  Qed.
End Prep.
Lemma fin_eye n : fin_mat n (eye1 n) (fun i j => if next_neighbour i j then 1 else 0).
Proof. split; [reflexivity|]. split; [reflexivity|]. intros i j _ _. cbn. unfold next_neighbour. destruct (j =? i + 1)%nat; reflexivity. Qed.

(** the whole function *)
Lemma moran_run vs w a mean_v m :
  (2 <= length vs)%nat ->
  (match w with None => a = next_neighbour | Some M => prepared (length vs) a M end) ->
  (match mean_v with None => known vs <> [] /\ m = known_mean vs | Some x => x = Fin m end) ->
  est_morans_i (map ov vs) w mean_v = Ok (moran_result vs a m).
Proof.
  intros Hl Hw Hm. unfold est_morans_i. rewrite map_length, (proj2 (Nat.ltb_ge _ 2) Hl).
  assert (Em : (match mean_v with None => nmean (compress (valid_of vs) (map ov vs)) | Some m => m end) = Fin m).
  { destruct mean_v as [x|]; [exact Hm|]. destruct Hm as [Hk ->]. rewrite compress_known, x_mean by exact Hk. reflexivity. }
  assert (P : exists M, (match w with None => Ok (eye1 (length vs)) | Some w => prepare_w w end) = Ok M /\ fin_mat (length vs) M (fun i j => if a i j then 1 else 0)).
  { destruct w as [M|]; [exact Hw|]. subst a. eexists. split; [reflexivity|]. apply fin_eye. }
  destruct P as (M & -> & F). cbn [rbind]. exact (moran_core vs a M mean_v m F Em).
Qed.
