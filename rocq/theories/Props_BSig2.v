(** * C38, C39, C84: transform_n and Moran's I *)
From Coq Require Import ZArith List Bool Lia Reals Lra Permutation Sorted.
From Verif Require Import Base Num XR RList SortLib Spec_Positive BValue_model AValue_model BSig_model Spec_BSig Moran_proofs.
Import ListNotations.
Local Open Scope R_scope.

(** ** C39 *)
(** the mean that is used: the given one, or that of the known values *)
Definition uses_mean (vs : list (option R)) (mean_v : option R) (m : R) : Prop :=
  match mean_v with Some x => m = x | None => known vs <> [] /\ m = known_mean vs end.
Definition accepted_forms (n : nat) (a : nat -> nat -> bool) : list (mat xr) := [upper n a; lower n a; both n a].
Lemma forms_prepared n a w : ordered_rel a -> In w (accepted_forms n a) -> prepared n a w.
Proof. intros Ha [<-|[<-|[<-|[]]]]; [apply prep_upper|apply prep_lower|apply prep_both]; exact Ha. Qed.
Lemma run_form vs w a mean_v m : (2 <= length vs)%nat -> ordered_rel a -> In w (accepted_forms (length vs) a) -> uses_mean vs mean_v m ->
  est_morans_i (map ov vs) (Some w) (option_map Fin mean_v) = Ok (moran_result vs a m).
Proof.
  intros Hl Ha Hw Hm. apply moran_run; [exact Hl|apply forms_prepared; assumption|]. destruct mean_v; cbn in *; [subst; reflexivity|exact Hm].
Qed.
Lemma run_none vs mean_v m : (2 <= length vs)%nat -> uses_mean vs mean_v m ->
  est_morans_i (map ov vs) None (option_map Fin mean_v) = Ok (moran_result vs next_neighbour m).
Proof. intros Hl Hm. apply moran_run; [exact Hl|reflexivity|]. destruct mean_v; cbn in *; [subst; reflexivity|exact Hm]. Qed.
Lemma result_value vs a m : known_pairs a vs <> [] -> dev2 m vs <> 0 ->
  moran_result vs a m = (Fin ((INR (length (known vs)) - 1) / INR (length (known_pairs a vs)) * devprod m a vs / dev2 m vs),
    length (known vs), Fin (INR (length (known_pairs a vs)))).
Proof.
  intros Hp Hd. unfold moran_result. rewrite x_div by (apply not_0_INR; destruct (known_pairs a vs); [congruence|discriminate]).
  rewrite x_mul, x_div by exact Hd. reflexivity.
Qed.

(** the value, for each of the three forms of the neighbour matrix and for the default *)
Theorem C39_value : forall vs a mean_v m w, (2 <= length vs)%nat -> uses_mean vs mean_v m ->
  known_pairs a vs <> [] -> dev2 m vs <> 0 ->
  (w = None /\ a = next_neighbour) \/ (exists W, w = Some W /\ ordered_rel a /\ In W (accepted_forms (length vs) a)) ->
  est_morans_i (map ov vs) w (option_map Fin mean_v) =
    Ok (Fin ((INR (length (known vs)) - 1) / INR (length (known_pairs a vs)) * devprod m a vs / dev2 m vs),
        length (known vs), Fin (INR (length (known_pairs a vs)))).
Proof.
  intros vs a mean_v m w Hl Hm Hp Hd [[-> ->]|(W & -> & Ha & Hw)].
  - rewrite (run_none vs mean_v m) by assumption. rewrite result_value by assumption. reflexivity.
  - rewrite (run_form vs W a mean_v m) by assumption. rewrite result_value by assumption. reflexivity.
Qed.
Print Assumptions C39_value.
(** transposed and symmetric matrices give the same *)
Theorem C39_forms_agree : forall vs a mean_v m w w', (2 <= length vs)%nat -> ordered_rel a -> uses_mean vs mean_v m ->
  In w (accepted_forms (length vs) a) -> In w' (accepted_forms (length vs) a) ->
  est_morans_i (map ov vs) (Some w) (option_map Fin mean_v) = est_morans_i (map ov vs) (Some w') (option_map Fin mean_v).
Proof. intros vs a mean_v m w w' Hl Ha Hm Hw Hw'. rewrite !(run_form vs _ a mean_v m) by assumption. reflexivity. Qed.
Print Assumptions C39_forms_agree.

Lemma known_map f vs : known (map (option_map f) vs) = map f (known vs).
Proof. unfold known. induction vs as [|[x|] vs IH]; cbn; [reflexivity|rewrite IH; reflexivity|exact IH]. Qed.
Lemma known_pairs_map f a vs : known_pairs a (map (option_map f) vs) = map (fun p => (f (fst p), f (snd p))) (known_pairs a vs).
Proof.
  unfold known_pairs. rewrite map_length.
  assert (Nt : forall i, nth i (map (option_map f) vs) None = option_map f (nth i vs None)).
  { intros i. change None with (option_map f None) at 1. apply map_nth. }
  rewrite !flat_map_concat_map, concat_map, map_map. f_equal. apply map_ext. intros i. rewrite !flat_map_concat_map, concat_map, map_map. f_equal. apply map_ext. intros j.
  rewrite !Nt. destruct (a i j), (nth i vs None), (nth j vs None); reflexivity.
Qed.
Lemma pairs_known a vs p : In p (known_pairs a vs) -> In (fst p) (known vs) /\ In (snd p) (known vs).
Proof.
  assert (K : forall i x, nth i vs None = Some x -> In x (known vs)).
  { intros i x E. unfold known. apply in_flat_map. exists (Some x). split; [|left; reflexivity]. rewrite <- E. apply nth_In.
    destruct (Nat.lt_ge_cases i (length vs)); [assumption|]. rewrite nth_overflow in E by assumption. discriminate. }
  intros H. unfold known_pairs in H. apply in_flat_map in H. destruct H as (i & _ & H). apply in_flat_map in H. destruct H as (j & _ & H).
  destruct (a i j); [|destruct H]. destruct (nth i vs None) eqn:E1; [|destruct H]. destruct (nth j vs None) eqn:E2; [|destruct H].
  destruct H as [<-|[]]. split; eapply K; eassumption.
Qed.

(** scaling and shifting all values (and the mean, if one is given) changes nothing *)
Theorem C39_affine : forall vs c s mean_v w, (2 <= length vs)%nat -> c <> 0 -> (mean_v = None -> known vs <> []) ->
  w = None \/ (exists a W, ordered_rel a /\ w = Some W /\ In W (accepted_forms (length vs) a)) ->
  est_morans_i (map ov (map (option_map (fun x => c * x + s)) vs)) w (option_map Fin (option_map (fun x => c * x + s) mean_v))
   = est_morans_i (map ov vs) w (option_map Fin mean_v).
Proof.
  intros vs c s mean_v w Hl Hc Hk Hw. set (f := fun x => c * x + s). set (vs' := map (option_map f) vs).
  assert (Hl' : length vs' = length vs) by (unfold vs'; apply map_length).
  assert (Hm : exists m, uses_mean vs mean_v m /\ uses_mean vs' (option_map f mean_v) (f m)).
  { destruct mean_v as [x|]; cbn; [exists x; split; reflexivity|]. specialize (Hk eq_refl). exists (known_mean vs). split; [split; [exact Hk|reflexivity]|].
    unfold vs'. rewrite known_map. split; [destruct (known vs); [congruence|discriminate]|]. unfold known_mean. rewrite known_map, map_length.
    unfold f. rewrite Rsum_map_plus, Rsum_map_scal, map_id, Rsum_map_const. field. apply not_0_INR. destruct (known vs); [congruence|discriminate]. }
  destruct Hm as (m & M1 & M2).
  assert (E : forall a, moran_result vs' a (f m) = moran_result vs a m).
  { intros a. unfold moran_result, vs'. rewrite known_map, known_pairs_map, !map_length.
    assert (D2 : dev2 (f m) (map (option_map f) vs) = c * c * dev2 m vs).
    { unfold dev2. rewrite known_map, map_map, <- Rsum_map_scal. apply Rsum_map_ext. intros x _. unfold f. ring. }
    assert (DP : devprod (f m) a (map (option_map f) vs) = c * c * devprod m a vs).
    { unfold devprod. rewrite known_pairs_map, map_map, <- Rsum_map_scal. apply Rsum_map_ext. intros p _. unfold f. cbn [fst snd]. ring. }
    rewrite D2, DP. assert (Cc : c * c <> 0) by nra.
    do 2 f_equal. destruct (known_pairs a vs) as [|p ps] eqn:Ep.
    - assert (Z : devprod m a vs = 0) by (unfold devprod; rewrite Ep; reflexivity). rewrite Z, Rmult_0_r. cbn [length INR].
      assert (X : nmul (ndiv (Fin (INR (length (known vs)) - 1)) (Fin 0)) (Fin 0) = NaN).
      { change (xmul (xdiv (Fin (INR (length (known vs)) - 1)) (Fin 0)) (Fin 0) = NaN). unfold xdiv, xmul, xsgn, xinf_of.
        repeat match goal with |- context [if ?b then _ else _] => destruct b; cbn end; try reflexivity; try (exfalso; lra). }
      rewrite X. reflexivity.
    - rewrite <- Ep. rewrite x_div by (rewrite Ep; apply not_0_INR; discriminate). rewrite !x_mul.
      destruct (Req_EM_T (dev2 m vs) 0) as [Z|Z].
      + assert (Zp : devprod m a vs = 0).
        { unfold devprod. rewrite (Rsum_map_ext _ (fun _ => 0)); [rewrite Rsum_map_const; ring|]. intros q Hq. apply pairs_known in Hq. destruct Hq as [Hq _].
          assert (Q : (fst q - m) * (fst q - m) = 0).
          { apply (Rsum_zero_all (map (fun x => (x - m) * (x - m)) (known vs))); [|exact Z|].
            - intros x Hx. apply in_map_iff in Hx. destruct Hx as (y & <- & _). exact (Rle_0_sqr (y - m)).
            - apply (in_map (fun x => (x - m) * (x - m)) (known vs) (fst q) Hq). }
          apply Rmult_integral in Q. destruct Q as [Q|Q]; rewrite Q; ring. }
        rewrite Z, Zp, !Rmult_0_r. reflexivity.
      + rewrite x_div by (apply Rmult_integral_contrapositive_currified; assumption). rewrite x_div by exact Z. f_equal. field. repeat split; auto.
        apply not_0_INR. rewrite Ep. discriminate. }
  destruct Hw as [->|(a & W & Ha & -> & Hw)].
  - rewrite (run_none vs' _ (f m)), (run_none vs _ m); rewrite ?Hl'; auto. rewrite E. reflexivity.
  - rewrite (run_form vs' W a _ (f m)), (run_form vs W a _ m); rewrite ?Hl'; auto. rewrite E. reflexivity.
Qed.
Print Assumptions C39_affine.

(** a NaN value has the same effect as deleting it together with its row and column *)
Definition known_positions (vs : list (option R)) : list nat :=
  filter (fun i => match nth i vs None with Some _ => true | None => false end) (seq 0 (length vs)).
Lemma flat_map_nothing {A} (p : nat -> bool) (f : nat -> list A) l : (forall i, p i = false -> f i = []) -> flat_map f l = flat_map f (filter p l).
Proof. intros H. induction l as [|i l IH]; [reflexivity|]. cbn. destruct (p i) eqn:E; cbn; rewrite IH; [reflexivity|]. rewrite H by exact E. reflexivity. Qed.
Lemma known_nth vs : forall k, (k < length (known vs))%nat -> nth (nth k (known_positions vs) 0%nat) vs None = nth k (map Some (known vs)) None.
Proof.
  assert (E : map (fun i => nth i vs None) (known_positions vs) = map Some (known vs)).
  { unfold known_positions. induction vs as [|v vs IH]; [reflexivity|]. cbn [length seq]. rewrite <- seq_shift.
    destruct v as [x|]; cbn [filter nth map known flat_map app]; rewrite (filter_map_swap S), map_map; cbn [nth].
    - f_equal. exact IH.
    - exact IH. }
  intros k Hk. rewrite <- E. rewrite (nth_indep (map (fun i => nth i vs None) (known_positions vs)) None (nth 0 vs None)).
  - symmetry. apply (map_nth (fun i => nth i vs None)).
  - rewrite E, map_length. exact Hk.
Qed.
Lemma known_positions_length vs : length (known_positions vs) = length (known vs).
Proof.
  unfold known_positions. induction vs as [|v vs IH]; [reflexivity|]. cbn [length seq]. rewrite <- seq_shift.
  destruct v as [x|]; cbn [filter nth known flat_map app length]; rewrite (filter_map_swap S), map_length; cbn [nth].
  - f_equal. exact IH.
  - exact IH.
Qed.
Lemma known_Some l : known (map Some l) = l.
Proof. unfold known. induction l; cbn; congruence. Qed.
Lemma seq_nth_list (l : list nat) : l = map (fun k => nth k l 0%nat) (seq 0 (length l)).
Proof. rewrite (map_nth_seq' (fun x => x) l 0%nat). symmetry. apply map_id. Qed.
Lemma flat_map_map {A B C} (f : B -> list C) (g : A -> B) l : flat_map f (map g l) = flat_map (fun x => f (g x)) l.
Proof. induction l; cbn; congruence. Qed.
Definition restrict (a : nat -> nat -> bool) (vs : list (option R)) (i j : nat) : bool :=
  a (nth i (known_positions vs) 0%nat) (nth j (known_positions vs) 0%nat).
Theorem C39_nan_is_deletion : forall vs a mean_v, (2 <= length (known vs))%nat -> ordered_rel a ->
  est_morans_i (map ov vs) (Some (upper (length vs) a)) (option_map Fin mean_v)
   = est_morans_i (map Fin (known vs)) (Some (upper (length (known vs)) (fun i j => (i <? j)%nat && restrict a vs i j))) (option_map Fin mean_v).
Proof.
  intros vs a mean_v Hk Ha.
  assert (Hl : (2 <= length vs)%nat).
  { rewrite <- known_positions_length in Hk. unfold known_positions in Hk. pose proof (filter_length_le' (fun i => match nth i vs None with Some _ => true | None => false end) (seq 0 (length vs))) as F.
    rewrite seq_length in F. lia. }
  assert (Hm : exists m, uses_mean vs mean_v m /\ uses_mean (map Some (known vs)) mean_v m).
  { destruct mean_v as [x|]; cbn; [exists x; split; reflexivity|]. exists (known_mean vs). unfold known_mean. rewrite known_Some.
    assert (known vs <> []) by (intros E; rewrite E in Hk; cbn in Hk; lia). auto. }
  destruct Hm as (m & M1 & M2).
  rewrite (run_form vs (upper (length vs) a) a mean_v m Hl Ha (or_introl eq_refl) M1).
  replace (map Fin (known vs)) with (map ov (map Some (known vs))) by (rewrite map_map; reflexivity).
  set (a' := fun i j => (i <? j)%nat && restrict a vs i j).
  assert (Ha' : ordered_rel a') by (intros i j E; unfold a' in E; apply andb_true_iff in E; destruct E as [E _]; apply Nat.ltb_lt; exact E).
  assert (Ll : length (map Some (known vs)) = length (known vs)) by apply map_length.
  assert (R2 := run_form (map Some (known vs)) (upper (length (known vs)) a') a' mean_v m). rewrite Ll in R2.
  rewrite (R2 Hk Ha' (or_introl eq_refl) M2).
  assert (EP : known_pairs a' (map Some (known vs)) = known_pairs a vs).
  { set (pp := fun i => match nth i vs None with Some _ => true | None => false end).
    set (g := fun i j => if a i j then match nth i vs None, nth j vs None with Some x, Some y => [(x, y)] | _, _ => [] end else []).
    symmetry. unfold known_pairs. fold g.
    change (flat_map (fun i => flat_map (fun j => g i j) (seq 0 (length vs))) (seq 0 (length vs)) = flat_map (fun i => flat_map (fun j => if a' i j then match nth i (map Some (known vs)) None, nth j (map Some (known vs)) None with Some x, Some y => [(x, y)] | _, _ => [] end else []) (seq 0 (length (map Some (known vs))))) (seq 0 (length (map Some (known vs))))).
    rewrite (flat_map_nothing pp) by (intros i E; unfold g, pp in *; clear - E; induction (seq 0 (length vs)) as [|j l IH]; [reflexivity|]; cbn [flat_map]; rewrite IH; destruct (a i j), (nth i vs None); try reflexivity; discriminate).
    change (filter pp (seq 0 (length vs))) with (known_positions vs). rewrite Ll. rewrite (seq_nth_list (known_positions vs)) at 1. rewrite known_positions_length, flat_map_map. apply flat_map_seq_ext. intros i Hi.
    rewrite (flat_map_nothing pp) by (intros j E; unfold pp in E; unfold g; destruct (nth j vs None); [discriminate|]; destruct (a _ j); [|reflexivity]; destruct (nth _ vs None); reflexivity).
    change (filter pp (seq 0 (length vs))) with (known_positions vs). rewrite (seq_nth_list (known_positions vs)) at 1. rewrite known_positions_length, flat_map_map. apply flat_map_seq_ext. intros j Hj.
    unfold g. rewrite !known_nth by assumption. unfold a', restrict.
    destruct (Nat.ltb_spec i j) as [L|L]; [reflexivity|]. cbn [andb]. destruct (a _ _) eqn:E; [|reflexivity]. exfalso. apply Ha in E.
    assert (S1 : forall x y, (x <= y)%nat -> (y < length (known_positions vs))%nat -> (nth x (known_positions vs) 0 <= nth y (known_positions vs) 0)%nat).
    { assert (S0 : StronglySorted lt (known_positions vs)).
      { unfold known_positions. assert (Sq : forall k st, StronglySorted lt (seq st k)).
        { induction k as [|k IH]; intros st; cbn; constructor; [apply IH|]. apply Forall_forall. intros z Hz. apply in_seq in Hz. lia. }
        generalize (Sq (length vs) 0%nat). generalize (seq 0 (length vs)). clear. intros l S. induction S as [|z l S IH F]; [constructor|]. cbn.
        destruct (nth z vs None); [|exact IH]. constructor; [exact IH|]. apply Forall_forall. intros y Hy. apply filter_In in Hy. rewrite Forall_forall in F. apply F. tauto. }
      clear - S0. induction S0 as [|z l S IH F]; intros x y Hx Hy; [cbn in Hy; lia|]. destruct x, y; cbn [nth length] in *; try lia.
      - rewrite Forall_forall in F. assert (Iy : In (nth y l 0%nat) l) by (apply nth_In; lia). apply F in Iy. lia.
      - apply IH; lia. }
    specialize (S1 j i L ltac:(rewrite known_positions_length; assumption)). lia. }
  unfold moran_result, devprod, dev2. rewrite EP, known_Some. reflexivity.
Qed.
Print Assumptions C39_nan_is_deletion.

(** what is rejected *)
Theorem C39_too_short : forall T (N : Num T) (vs : list T) w mean_v, (length vs < 2)%nat -> est_morans_i vs w mean_v = Err ValueError.
Proof. intros. unfold est_morans_i. rewrite (proj2 (Nat.ltb_lt _ 2)) by assumption. reflexivity. Qed.
Print Assumptions C39_too_short.
Theorem C39_not_square : forall T (N : Num T) (vs : list T) w mean_v, (2 <= length vs)%nat -> rows w <> cols w -> est_morans_i vs (Some w) mean_v = Err ValueError.
Proof.
  intros T N vs w mean_v Hl H. unfold est_morans_i, prepare_w. rewrite (proj2 (Nat.ltb_ge _ 2)) by assumption. rewrite (proj2 (Nat.eqb_neq _ _) H). reflexivity.
Qed.
Print Assumptions C39_not_square.
Lemma prepare_size {T} {N : Num T} (w M : mat T) : prepare_w w = Ok M -> rows M = rows w /\ cols M = cols w.
Proof.
  unfold prepare_w. destruct (Nat.eqb_spec (rows w) (cols w)) as [E|E]; [|discriminate]. cbn [negb].
  set (w1 := if is_zero (nsum (diagonal w)) then w else fill_diagonal0 w).
  assert (S1 : rows w1 = rows w /\ cols w1 = cols w) by (unfold w1; destruct (is_zero _); split; reflexivity).
  assert (G : forall x : mat T, rows x = rows w -> cols x = cols w -> (if zero_one x then Ok x else Err ValueError) = Ok M -> rows M = rows w /\ cols M = cols w).
  { intros x Hr Hc H. destruct (zero_one x); [|discriminate]. injection H as <-. auto. }
  destruct S1 as [S1 S2]. destruct (negb (is_zero (msum (tril w1))) && negb (is_zero (msum (triu w1)))).
  - destruct (symmetric w1); [|discriminate]. cbn [rbind]. apply G; cbn; congruence.
  - destruct (is_zero (msum (triu w1))); cbn [rbind]; apply G; cbn; congruence.
Qed.
Theorem C39_wrong_size : forall T (N : Num T) (vs : list T) w mean_v r, est_morans_i vs (Some w) mean_v = Ok r -> rows w = length vs /\ cols w = length vs.
Proof.
  intros T N vs w mean_v r H. unfold est_morans_i in H. destruct (length vs <? 2)%nat; [discriminate|]. destruct (prepare_w w) as [M|] eqn:E; [|discriminate].
  apply prepare_size in E. cbn [rbind] in H. unfold mask_w in H. rewrite map_length in H.
  destruct (Nat.eqb_spec (length vs) (rows M)) as [R1|]; [|discriminate]. destruct (Nat.eqb_spec (length vs) (cols M)) as [C1|]; [|discriminate]. split; lia.
Qed.
Print Assumptions C39_wrong_size.
(** a matrix of finite numbers is accepted only if, off the diagonal, it consists of zeros and
    ones and is upper triangular, lower triangular or symmetric *)
Theorem C39_only_triangular_or_symmetric : forall vs n e w mean_v r, fin_mat n w e -> est_morans_i vs (Some w) mean_v = Ok r ->
  (forall i j, (i < n)%nat -> (j < n)%nat -> i <> j -> e i j = 0 \/ e i j = 1) /\
  ((forall i j, (j < i)%nat -> (i < n)%nat -> e i j = 0) \/ (forall i j, (i < j)%nat -> (j < n)%nat -> e i j = 0) \/
   (forall i j, (i < n)%nat -> (j < n)%nat -> e i j = e j i)).
Proof.
  intros vs n e w mean_v r F H. unfold est_morans_i in H. destruct (length vs <? 2)%nat; [discriminate|]. destruct (prepare_w w) as [M|] eqn:E; [|discriminate].
  clear H. unfold prepare_w in E. destruct F as (R1 & C1 & F0). rewrite R1, C1, Nat.eqb_refl in E. cbn [negb] in E.
  set (w1 := if is_zero (nsum (diagonal w)) then w else fill_diagonal0 w) in *.
  assert (F1 : exists e1, fin_mat n w1 e1 /\ forall i j, i <> j -> e1 i j = e i j).
  { unfold w1. destruct (is_zero _); [exists e; split; [split; auto|auto]|]. exists (fun i j => if (i =? j)%nat then 0 else e i j). split.
    - split; [exact R1|]. split; [exact C1|]. intros i j Hi Hj. cbn. destruct (i =? j)%nat; [reflexivity|]. apply F0; assumption.
    - intros i j Hne. rewrite (proj2 (Nat.eqb_neq i j) Hne). reflexivity. }
  destruct F1 as (e1 & F1 & Off).
  assert (Z1 : forall (x : mat xr) ex, fin_mat n x ex -> zero_one x = true -> forall i j, (i < n)%nat -> (j < n)%nat -> ex i j = 0 \/ ex i j = 1).
  { intros x ex Fx Hz i j Hi Hj. unfold zero_one in Hz. rewrite (entries_fin n x ex Fx), forallb_forall in Hz.
    specialize (Hz (Fin (ex i j))). assert (I : In (Fin (ex i j)) (map Fin (flat_map (fun i => map (ex i) (seq 0 n)) (seq 0 n)))).
    { apply in_map, in_flat_map. exists i. split; [apply in_seq; lia|]. apply in_map, in_seq. lia. }
    specialize (Hz I). apply orb_true_iff in Hz. destruct Hz as [Hz|Hz]; [left|right]; change (req (ex i j) 0 = true) in Hz || change (req (ex i j) 1 = true) in Hz; apply req_true; exact Hz. }
  rewrite (msum_fin n _ _ (fin_tril n _ _ F1)), (msum_fin n _ _ (fin_triu n _ _ F1)), !is_zero_fin in E.
  set (sl := sumn n _) in E. set (su := sumn n (fun i => sumn n (fun j => if (i <=? j)%nat then e1 i j else 0))) in E.
  destruct (req su 0) eqn:Eu.
  - rewrite andb_false_r in E. cbn [rbind] in E. destruct (zero_one (transpose w1)) eqn:Ez; [|discriminate].
    pose proof (Z1 _ _ (fin_transpose n _ _ F1) Ez) as Z. cbv beta in Z. apply req_true in Eu.
    split; [intros i j Hi Hj Hne; rewrite <- Off by exact Hne; apply Z; assumption|]. right. left. intros i j Hlt Hj.
    pose proof (fun H => fin_sum_zero n (fun i j => if (i <=? j)%nat then (if (i <? n)%nat && (j <? n)%nat then e1 i j else 0) else 0) H) as G.
    rewrite <- Off by lia.
    assert (G1 := fun H H' => G H H' i j ltac:(lia) Hj). cbv beta in G1. rewrite (proj2 (Nat.leb_le i j)), (proj2 (Nat.ltb_lt i n)), (proj2 (Nat.ltb_lt j n)) in G1 by lia. cbn [andb] in G1. apply G1.
    + intros i0 j0. destruct (i0 <=? j0)%nat; [|lra]. destruct (Nat.ltb_spec i0 n), (Nat.ltb_spec j0 n); cbn [andb]; try lra. destruct (Z j0 i0); try assumption; lra.
    + transitivity su; [|exact Eu]. apply sumn_ext. intros i0 Hi0. apply sumn_ext. intros j0 Hj0. rewrite (proj2 (Nat.ltb_lt i0 n)), (proj2 (Nat.ltb_lt j0 n)) by assumption. reflexivity.
  - destruct (req sl 0) eqn:El; cbn [negb andb rbind] in E.
    + destruct (zero_one w1) eqn:Ez; [|discriminate]. pose proof (Z1 _ _ F1 Ez) as Z. apply req_true in El.
      split; [intros i j Hi Hj Hne; rewrite <- Off by exact Hne; apply Z; assumption|]. left. intros i j Hlt Hi.
      pose proof (fun H => fin_sum_zero n (fun i j => if (j <=? i)%nat then (if (i <? n)%nat && (j <? n)%nat then e1 i j else 0) else 0) H) as G.
      rewrite <- Off by lia.
      assert (G1 := fun H H' => G H H' i j Hi ltac:(lia)). cbv beta in G1. rewrite (proj2 (Nat.leb_le j i)), (proj2 (Nat.ltb_lt i n)), (proj2 (Nat.ltb_lt j n)) in G1 by lia. cbn [andb] in G1. apply G1.
      * intros i0 j0. destruct (j0 <=? i0)%nat; [|lra]. destruct (Nat.ltb_spec i0 n), (Nat.ltb_spec j0 n); cbn [andb]; try lra. destruct (Z i0 j0); try assumption; lra.
      * transitivity sl; [|exact El]. apply sumn_ext. intros i0 Hi0. apply sumn_ext. intros j0 Hj0. rewrite (proj2 (Nat.ltb_lt i0 n)), (proj2 (Nat.ltb_lt j0 n)) by assumption. reflexivity.
    + destruct (symmetric w1) eqn:Es; [|discriminate]. cbn [rbind] in E. destruct (zero_one (triu w1)) eqn:Ez; [|discriminate].
      pose proof (Z1 _ _ (fin_triu n _ _ F1) Ez) as Z. cbv beta in Z.
      assert (Sy : forall i j, (i < n)%nat -> (j < n)%nat -> e1 i j = e1 j i).
      { intros i j Hi Hj. unfold symmetric in Es. destruct F1 as (R2 & C2 & F2). rewrite R2, C2, forallb_forall in Es. specialize (Es i ltac:(apply in_seq; lia)).
        rewrite forallb_forall in Es. specialize (Es j ltac:(apply in_seq; lia)). rewrite !F2 in Es by assumption. apply req_true in Es. exact Es. }
      split.
      * intros i j Hi Hj Hne. rewrite <- Off by exact Hne. destruct (Nat.le_gt_cases i j) as [L|L].
        -- specialize (Z i j Hi Hj). rewrite (proj2 (Nat.leb_le i j) L) in Z. exact Z.
        -- rewrite Sy by assumption. specialize (Z j i Hj Hi). rewrite (proj2 (Nat.leb_le j i)) in Z by lia. exact Z.
      * right. right. intros i j Hi Hj. destruct (Nat.eq_dec i j) as [->|Hne]; [reflexivity|]. rewrite <- !Off by auto. apply Sy; assumption.
Qed.
Print Assumptions C39_only_triangular_or_symmetric.
Example C39_example : (2 <= length [Some 1; None; Some 3; Some 5])%nat /\ uses_mean [Some 1; None; Some 3; Some 5] None 3 /\
  known_pairs (fun i j => (i <? j)%nat) [Some 1; None; Some 3; Some 5] = [(1, 3); (1, 5); (3, 5)] /\
  dev2 3 [Some 1; None; Some 3; Some 5] <> 0 /\ ordered_rel (fun i j => (i <? j)%nat).
Proof.
  split; [cbn; lia|]. split; [split; [discriminate|unfold known_mean, Rsum; cbn; field]|]. split; [reflexivity|]. split; [unfold dev2, Rsum; cbn; lra|].
  intros i j H. apply Nat.ltb_lt. exact H.
Qed.

(** ** C84: the 1D autocorrelation of a series without NaN lies between -1 and 1 *)
Lemma next_pairs_Some (l : list R) : known_pairs next_neighbour (map Some l) = combine l (tl l).
Proof.
  unfold known_pairs. rewrite map_length. induction l as [|x l IH]; [reflexivity|]. cbn [length]. set (k := length l) in *.
  change (seq 0 (S k)) with (0%nat :: seq 1 k) at 2. cbn [flat_map].
  assert (E1 : flat_map (fun j => if next_neighbour 0 j then match nth 0 (map Some (x :: l)) None, nth j (map Some (x :: l)) None with Some x0, Some y => [(x0, y)] | _, _ => [] end else []) (seq 0 (S k))
     = match l with [] => [] | y :: _ => [(x, y)] end).
  { unfold k. destruct l as [|y l]; [reflexivity|]. cbn [length seq flat_map next_neighbour Nat.eqb Nat.add nth map app]. f_equal.
    assert (Z : forall m st, (2 <= st)%nat -> flat_map (fun j => if (j =? 1)%nat then match nth j (Some x :: Some y :: map Some l) None with Some y0 => [(x, y0)] | None => [] end else []) (seq st m) = []).
    { induction m as [|m IHm]; intros st Hst; [reflexivity|]. cbn [seq flat_map]. rewrite (proj2 (Nat.eqb_neq st 1)) by lia. cbn. apply IHm. lia. }
    apply Z. lia. }
  rewrite E1. rewrite <- seq_shift, flat_map_map.
  assert (E2 : forall i, flat_map (fun j => if next_neighbour (S i) j then match nth (S i) (map Some (x :: l)) None, nth j (map Some (x :: l)) None with Some x0, Some y => [(x0, y)] | _, _ => [] end else []) (seq 0 (S k))
     = flat_map (fun j => if next_neighbour i j then match nth i (map Some l) None, nth j (map Some l) None with Some x0, Some y => [(x0, y)] | _, _ => [] end else []) (seq 0 k)).
  { intros i. change (seq 0 (S k)) with (0%nat :: seq 1 k). cbn [flat_map]. unfold next_neighbour at 1. cbn [Nat.eqb Nat.add app]. rewrite <- seq_shift, flat_map_map. reflexivity. }
  rewrite (flat_map_ext _ _ E2), IH. destruct l; reflexivity.
Qed.
Theorem C84_bounded : forall l m mean_v, (2 <= length l)%nat -> uses_mean (map Some l) mean_v m -> dev2 m (map Some l) <> 0 ->
  exists ac, est_morans_i (map Fin l) None (option_map Fin mean_v) = Ok (Fin ac, length l, Fin (INR (length l) - 1)) /\ -1 <= ac <= 1 /\
    ac = Rsum (map (fun p => (fst p - m) * (snd p - m)) (combine l (tl l))) / Rsum (map (fun x => (x - m) * (x - m)) l).
Proof.
  intros l m mean_v Hl Hm Hd. replace (map Fin l) with (map ov (map Some l)) by (rewrite map_map; reflexivity).
  assert (Lc : length (combine l (tl l)) = (length l - 1)%nat) by (rewrite combine_length; destruct l; cbn [tl length]; lia).
  rewrite (C39_value (map Some l) next_neighbour mean_v m None); rewrite ?map_length; auto.
  2:{ rewrite next_pairs_Some. intros E. rewrite E in Lc. cbn in Lc. lia. }
  rewrite known_Some, next_pairs_Some, Lc, minus_INR by lia. change (INR 1) with 1. eexists. split; [reflexivity|].
  unfold devprod, dev2 in *. rewrite next_pairs_Some, known_Some in *.
  set (P := Rsum (map (fun p => (fst p - m) * (snd p - m)) (combine l (tl l)))). set (D := Rsum (map (fun x => (x - m) * (x - m)) l)) in *.
  assert (N1 : INR (length l) - 1 <> 0) by (change 1 with (INR 1); rewrite <- minus_INR by lia; apply not_0_INR; lia).
  assert (E : (INR (length l) - 1) / (INR (length l) - 1) * P / D = P / D) by (field; split; assumption). rewrite E. split; [|reflexivity].
  assert (Dp : 0 < D). { assert (0 <= D) by (apply Rsum_nonneg; intros x Hx; apply in_map_iff in Hx; destruct Hx as (y & <- & _); exact (Rle_0_sqr (y - m))). lra. }
  assert (B : Rabs P <= D).
  { unfold P, D. clear. set (f := fun x => x - m).
    assert (B0 : forall l x, Rabs (Rsum (map (fun p => f (fst p) * f (snd p)) (combine (x :: l) l))) <= Rsum (map (fun x => f x * f x) (x :: l)) - f x * f x / 2).
    { induction l0 as [|y l0 IH]; intros x.
      - cbn [combine map]. change (Rsum []) with 0. rewrite Rabs_R0, Rsum_cons. change (Rsum []) with 0. nra.
      - change (combine (x :: y :: l0) (y :: l0)) with ((x, y) :: combine (y :: l0) l0). rewrite !map_cons, !Rsum_cons. cbn [fst snd]. specialize (IH y). rewrite map_cons in IH. rewrite Rsum_cons in IH.
        set (Q := Rsum (map (fun p => f (fst p) * f (snd p)) (combine (y :: l0) l0))) in *. set (D0 := Rsum (map (fun x0 => f x0 * f x0) l0)) in *.
        pose proof (Rabs_triang (f x * f y) Q). pose proof (Rle_0_sqr (f x - f y)) as S1. pose proof (Rle_0_sqr (f x + f y)) as S2. unfold Rsqr in S1, S2.
        assert (Rabs (f x * f y) <= f x * f x / 2 + f y * f y / 2); [apply Rabs_le; split; lra|lra]. }
    destruct l as [|x l]; [cbn; rewrite Rabs_R0; lra|]. cbn [tl]. specialize (B0 l x). unfold f in B0. pose proof (Rle_0_sqr (x - m)) as Q. unfold Rsqr in Q.
    eapply Rle_trans; [exact B0|]. lra. }
  assert (B' : - D <= P <= D) by (unfold Rabs in B; destruct (Rcase_abs P); lra).
  unfold Rdiv. split; apply (Rmult_le_reg_r D); try lra; rewrite Rmult_assoc, Rinv_l; lra.
Qed.
Print Assumptions C84_bounded.
Example C84_example : uses_mean (map Some [1; 2; 4]) None (7 / 3) /\ dev2 (7 / 3) (map Some [1; 2; 4]) <> 0.
Proof. split; [split; [discriminate|unfold known_mean, Rsum; cbn; field]|unfold dev2, Rsum; cbn; lra]. Qed.

(** ** C38: transform_n *)
Definition tr (bt b n1 n2 : R) : R := bt / (1 - sqrt (n1 / n2) * (1 - bt / b)).
Definition tr_dom (bt b n1 n2 : R) : Prop := 0 < bt /\ 0 < b /\ 0 < n1 /\ n1 <= n2.
Lemma tr_sqrt n1 n2 : 0 < n1 -> n1 <= n2 -> 0 < sqrt (n1 / n2) <= 1.
Proof.
  intros H H'. assert (0 < n1 / n2) by (apply Rdiv_lt_0_compat; lra). split; [apply sqrt_lt_R0; assumption|].
  rewrite <- sqrt_1. apply sqrt_le_1; try lra. apply (Rmult_le_reg_r n2); [lra|]. unfold Rdiv. rewrite Rmult_assoc, Rinv_l; lra.
Qed.
Lemma tr_den bt b n1 n2 : tr_dom bt b n1 n2 -> 0 < 1 - sqrt (n1 / n2) * (1 - bt / b).
Proof.
  intros (H1 & H2 & H3 & H4). pose proof (tr_sqrt n1 n2 H3 H4). assert (0 < bt / b) by (apply Rdiv_lt_0_compat; lra).
  replace (1 - sqrt (n1 / n2) * (1 - bt / b)) with ((1 - sqrt (n1 / n2)) + sqrt (n1 / n2) * (bt / b)) by ring. nra.
Qed.
Lemma tr_inv bt b n1 n2 : tr_dom bt b n1 n2 -> bt / tr bt b n1 n2 = 1 - sqrt (n1 / n2) * (1 - bt / b).
Proof. intros H. pose proof (tr_den _ _ _ _ H). destruct H as (H1 & _). unfold tr. set (d := 1 - sqrt (n1 / n2) * (1 - bt / b)) in *. field. split; lra. Qed.
Lemma tr_pos bt b n1 n2 : tr_dom bt b n1 n2 -> 0 < tr bt b n1 n2.
Proof. intros H. pose proof (tr_den _ _ _ _ H). destruct H as (H1 & _). apply Rdiv_lt_0_compat; assumption. Qed.
Lemma transform_tr bt b n1 n2 : tr_dom bt b n1 n2 -> transform_n [Fin b] (Fin bt) [Fin n1] [Fin n2] = Ok [Fin (tr bt b n1 n2)].
Proof.
  intros H. pose proof (tr_den _ _ _ _ H). destruct H as (H1 & H2 & H3 & H4). unfold transform_n. cbn [map2 existsb map3].
  rewrite x_ltb, (proj2 (rlt_false n2 n1)) by lra. cbn [orb]. unfold transform_one. rewrite x_div by lra. rewrite x_sqrt by (apply Rlt_le, Rdiv_lt_0_compat; lra).
  rewrite x_one, x_div, x_sub, x_mul, x_sub, x_div by lra. reflexivity.
Qed.

(** element by element, ValueError exactly if some n1 > n2 *)
Theorem C38_elementwise : forall bt (l : list (R * R * R)), (forall p, In p l -> tr_dom bt (fst (fst p)) (snd (fst p)) (snd p)) ->
  transform_n (map (fun p => Fin (fst (fst p))) l) (Fin bt) (map (fun p => Fin (snd (fst p))) l) (map (fun p => Fin (snd p)) l)
   = Ok (map (fun p => Fin (tr bt (fst (fst p)) (snd (fst p)) (snd p))) l).
Proof.
  intros bt l H. unfold transform_n.
  assert (E : existsb (fun b : bool => b) (map2 (fun x y => nltb y x) (map (fun p => Fin (snd (fst p))) l) (map (fun p => Fin (snd p)) l)) = false).
  { induction l as [|p l IH]; [reflexivity|]. cbn [map map2 existsb]. rewrite IH by (intros; apply H; right; assumption).
    rewrite x_ltb, (proj2 (rlt_false _ _)); [reflexivity|]. destruct (H p (or_introl eq_refl)) as (_ & _ & _ & ?). assumption. }
  rewrite E. f_equal. clear E. induction l as [|p l IH]; [reflexivity|]. cbn [map map3]. f_equal; [|apply IH; intros; apply H; right; assumption].
  pose proof (transform_tr _ _ _ _ (H p (or_introl eq_refl))) as E. unfold transform_n in E. destruct (existsb _ _); [discriminate|]. injection E as E. exact E.
Qed.
Print Assumptions C38_elementwise.
Theorem C38_error : forall bs bt (l : list (R * R)), (exists p, In p l /\ snd p < fst p) ->
  transform_n bs bt (map (fun p => Fin (fst p)) l) (map (fun p => Fin (snd p)) l) = Err ValueError.
Proof.
  intros bs bt l (p & Hp & L). unfold transform_n.
  assert (E : existsb (fun b : bool => b) (map2 (fun x y => nltb y x) (map (fun p => Fin (fst p)) l) (map (fun p => Fin (snd p)) l)) = true).
  { induction l as [|q l IH]; [destruct Hp|]. cbn [map map2 existsb]. apply orb_true_iff. destruct Hp as [->|Hp]; [left; apply rlt_true; exact L|right; apply IH; exact Hp]. }
  rewrite E. reflexivity.
Qed.
Print Assumptions C38_error.
Theorem C38_transform : forall bt b n1 n2, tr_dom bt b n1 n2 ->
  exists b', transform_n [Fin b] (Fin bt) [Fin n1] [Fin n2] = Ok [Fin b'] /\ 0 < b' /\
    (* the deviation of 1/b shrinks by sqrt(n1/n2) *)
    1 / b' - 1 / bt = sqrt (n1 / n2) * (1 / b - 1 / bt) /\
    (n1 = n2 -> b' = b) /\ (b = bt -> b' = bt) /\
    (* transforming on to n3 equals the direct transformation *)
    (forall n3, n2 <= n3 -> transform_n [Fin b'] (Fin bt) [Fin n2] [Fin n3] = transform_n [Fin b] (Fin bt) [Fin n1] [Fin n3]) /\
    (* increasing in b *)
    (forall c c', b < c -> transform_n [Fin c] (Fin bt) [Fin n1] [Fin n2] = Ok [Fin c'] -> b' < c').
Proof.
  intros bt b n1 n2 H. exists (tr bt b n1 n2). split; [apply transform_tr; exact H|]. pose proof (tr_pos _ _ _ _ H) as Pb. pose proof (tr_inv _ _ _ _ H) as Iv. pose proof (tr_den _ _ _ _ H) as Dn.
  split; [exact Pb|]. pose proof H as (H1 & H2 & H3 & H4). pose proof (tr_sqrt n1 n2 H3 H4) as Sq.
  assert (K : 1 / tr bt b n1 n2 - 1 / bt = sqrt (n1 / n2) * (1 / b - 1 / bt)).
  { apply (Rmult_eq_reg_l bt); [|lra]. replace (bt * (1 / tr bt b n1 n2 - 1 / bt)) with (bt / tr bt b n1 n2 - 1) by (field; lra). rewrite Iv. field. lra. }
  split; [exact K|].
  assert (Inj : forall x y, 0 < x -> 0 < y -> 1 / x = 1 / y -> x = y).
  { intros x y Hx Hy E. apply (Rmult_eq_compat_l (x * y)) in E. replace (x * y * (1 / x)) with y in E by (field; lra). replace (x * y * (1 / y)) with x in E by (field; lra). congruence. }
  split.
  { intros ->. apply Inj; [exact Pb|exact H2|]. replace (n2 / n2) with 1 in K by (field; lra). rewrite sqrt_1 in K. lra. }
  split.
  { intros ->. apply Inj; [exact Pb|exact H1|]. lra. }
  split.
  - intros n3 L3. assert (D2 : tr_dom bt (tr bt b n1 n2) n2 n3) by (repeat split; lra). assert (D3 : tr_dom bt b n1 n3) by (repeat split; lra).
    rewrite (transform_tr _ _ _ _ D2), (transform_tr _ _ _ _ D3). do 3 f_equal. unfold tr at 1 3. f_equal. f_equal. rewrite Iv.
    replace (1 - (1 - sqrt (n1 / n2) * (1 - bt / b))) with (sqrt (n1 / n2) * (1 - bt / b)) by ring. rewrite <- Rmult_assoc. f_equal.
    rewrite <- sqrt_mult by (apply Rlt_le, Rdiv_lt_0_compat; lra). f_equal. field. lra.
  - intros c c' L E. assert (Dc : tr_dom bt c n1 n2) by (repeat split; lra). rewrite (transform_tr _ _ _ _ Dc) in E. injection E as <-.
    pose proof (tr_den _ _ _ _ Dc) as Dn'. unfold tr. apply Rmult_lt_compat_l; [lra|]. apply Rinv_lt_contravar; [nra|].
    assert (bt / c < bt / b). { apply Rmult_lt_compat_l; [lra|]. apply Rinv_lt_contravar; nra. } nra.
Qed.
Print Assumptions C38_transform.
Example C38_example : tr_dom 1 2 100 1000.
Proof. repeat split; lra. Qed.
