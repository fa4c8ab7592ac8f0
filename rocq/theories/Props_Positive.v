(** * Property theorems about the estimators based on magnitude differences (C18-C22, C26)

    [argsort_ok srt]: [srt] behaves like np.argsort.  [times_fit a]: one time per magnitude
    (if times are given).  The theorems of C18 and C19 hold for every arithmetic. *)
From Coq Require Import Reals Lra List Permutation Lia Bool ZArith Sorted.
From Verif Require Import Base Num XR RList SortLib Binning_model Spec_Binning Binning_proofs BinTest_proofs
  BValue_model BValue_run Spec_BValue BValue_real Likelihood BValue_proofs Spec_Positive Positive_proofs Props_BValue Props_BValue2.
Import ListNotations.

Section Norm.
  Context {T : Type} {N : Num T}.
  Variable srt : list T -> list nat.
  Hypothesis Hsrt : argsort_ok srt.
  Definition small (a : @args T) : bool := nltb (dec_val (a_delta a)) EPSILON.
  Definition pos_out (a : @args T) (order : list nat) : res out :=
    if nltb zero (dec_val (a_delta a)) && small a then Err ValueError else
    let ps := pos_pairs a order in
    let? b := mle_estimator (map (fun p => binned a (pair_diff a p)) ps) (the_dmc a) (a_delta a) (along (a_weights a) (map snd ps)) in
    Ok (mkout (map (fun p => binned a (pair_diff a p)) ps) (along (a_weights a) (map snd ps)) (map snd ps)
          (along (a_times a) (map snd ps)) (f_mags a) (f_weights a) b).
  Definition more_out (a : @args T) (order : list nat) : res out :=
    if small a then Err ValueError else
    let ps := next_pairs (far a) order in
    let? b := mle_estimator (map (fun p => bin_elem (a_delta a) (pair_diff a p)) ps) (the_dmc a) (a_delta a) (along (a_weights a) (map snd ps)) in
    Ok (mkout (map (fun p => bin_elem (a_delta a) (pair_diff a p)) ps) (along (a_weights a) (map snd ps)) (map snd ps)
          (along (a_times a) (map snd ps)) (map (mag a) order) (along (a_weights a) order) b).
  Definition empty_out (a : @args T) : out :=
    mkout [] (along (a_weights a) []) [] (along (a_times a) []) [] (along (a_weights a) []) nnan.

  Lemma run_pos_cases a k : k = BPositive \/ k = BMorePositive -> times_fit a -> dmc_ok k a -> check a = Ok tt ->
    exists order, time_order (a_mags a) (thr a) (a_times a) order /\ Permutation order (f_idx a) /\
      run srt k a = match order with [] => Ok (empty_out a) | _ => match k with BPositive => pos_out a order | _ => more_out a order end end.
  Proof.
    intros Hk Ht Hd Hc. assert (Hp : is_pos k = true) by (destruct Hk as [->| ->]; reflexivity).
    destruct (ordered_spec srt Hsrt k a Hp Hc Ht) as (ts & order & Ft & To & Po & Ne & Em & Eo).
    exists order. split; [exact To|]. split; [exact Po|]. rewrite run_dmc by exact Hd. rewrite Hc, Ft. cbn [rbind].
    destruct order as [|i order].
    - destruct (f_mags a) eqn:Ef; [|discriminate (proj1 Ne eq_refl)].
      destruct (Em eq_refl) as [-> ->]. unfold empty_out. apply Permutation_nil in Po. rewrite Po. reflexivity.
    - assert (Hne : i :: order <> []) by discriminate. remember (i :: order) as ord. 
      destruct (f_mags a) as [|m ms] eqn:Ef; [exfalso; apply Hne; apply Ne; reflexivity|]. rewrite <- Ef in *.
      destruct Hk as [->| ->]; cbn [run_est].
      + unfold pos_out. destruct (nltb zero (dec_val (a_delta a)) && small a) eqn:Es.
        * apply andb_true_iff in Es. destruct Es as [Z S]. unfold run_pos. rewrite Eo. cbn [rbind]. rewrite Z.
          unfold bin_to_precision. unfold small in S. rewrite S. reflexivity.
        * apply run_pos_order; [exact Eo|]. intros Z. rewrite Z in Es. exact Es.
      + unfold more_out. destruct (small a) eqn:Es; unfold small in Es.
        * apply (run_more_small srt a ord ts); assumption.
        * apply run_more_order; assumption.
  Qed.
End Norm.

(** ** C18: b-positive.  [bin_elem delta x] is the value bin_to_precision gives for x. *)
Theorem C18_used_differences : forall T (N : Num T) srt w (a : @args T) o o' b,
  argsort_ok srt -> times_fit a -> calculate srt BPositive w a o = (o', Ok b) ->
  let d := dec_val (a_delta a) in
  let dmc := match a_dmc a with Some x => x | None => d end in
  let m i := nth i (a_mags a) nnan in
  exists order, time_order (a_mags a) (nsub (a_mc a) (ndiv d two)) (a_times a) order /\
    let used := filter (fun p => nleb (nsub dmc (ndiv d two)) (nsub (m (snd p)) (m (fst p)))) (consecutive order) in
    let diffs := map (fun p => nsub (m (snd p)) (m (fst p))) used in
    let mags := if nltb zero d then map (bin_elem (a_delta a)) diffs else diffs in
    o_mags o' = Some mags /\
    o_idx o' = Some (map snd used) /\
    o_weights o' = option_map (fun ws => map (fun p => nth (snd p) ws nnan) used) (a_weights a) /\
    o_times o' = option_map (fun ts => map (fun p => nth (snd p) ts nnan) used) (a_times a) /\
    o_dmc o' = Some dmc /\
    (order = [] -> b = nnan) /\
    (order <> [] -> mle_estimator mags dmc (a_delta a) (o_weights o') = Ok b).
Proof.
  intros T N srt w a o o' b Hs Ht C. cbv zeta. apply calculate_inv in C. destruct C as (u & R & -> & F).
  assert (Hd : dmc_ok BPositive a).
  { intros _. unfold run in R. cbn [is_pos andb] in R. unfold the_dmc in R.
    destruct (nltb (match a_dmc a with Some d => d | None => dec_val (a_delta a) end) zero); [discriminate|reflexivity]. }
  assert (Hc : check a = Ok tt) by (apply run_cases in R; tauto).
  destruct (run_pos_cases srt Hs a BPositive (or_introl eq_refl) Ht Hd Hc) as (order & To & _ & E). rewrite R in E.
  exists order. split; [exact To|].
  change (filter _ (consecutive order)) with (pos_pairs a order).
  change (map (fun p => nsub (nth (snd p) (a_mags a) nnan) (nth (fst p) (a_mags a) nnan)) (pos_pairs a order))
    with (map (pair_diff a) (pos_pairs a order)).
  assert (B : map (fun p => binned a (pair_diff a p)) (pos_pairs a order) =
    (if nltb zero (dec_val (a_delta a)) then map (bin_elem (a_delta a)) (map (pair_diff a) (pos_pairs a order)) else map (pair_diff a) (pos_pairs a order))).
  { unfold binned. destruct (nltb zero (dec_val (a_delta a))); [rewrite map_map|]; reflexivity. }
  rewrite <- B.
  assert (Al : forall x, along x (map snd (pos_pairs a order)) = option_map (fun l => map (fun p => nth (snd p) l nnan) (pos_pairs a order)) x).
  { intros [l|]; [|reflexivity]. cbn. rewrite map_map. reflexivity. }
  destruct F as (F1 & _ & _ & F4 & F5 & _ & _ & _ & F9 & F10). cbn [is_pos] in F9, F10.
  rewrite F1, F4, F5, F9, F10.
  destruct order as [|i order].
  - injection E as ->. cbn [empty_out u_mags u_weights u_idx u_times u_b]. rewrite <- !Al. repeat split; congruence.
  - unfold pos_out in E. destruct (nltb zero _ && small a); [discriminate|].
    destruct (mle_estimator _ _ _ _) as [b'|] eqn:Em; [|discriminate]. cbn [rbind] in E. injection E as ->.
    cbn [u_mags u_weights u_idx u_times u_b]. rewrite <- !Al. repeat split; [discriminate|]. intros _. exact Em.
Qed.
Print Assumptions C18_used_differences.

(** ** C19: b-more-positive *)
(** the public helper: entry i is the position of the first later element that is larger
    by at least dmc - delta/2, and 0 if there is none *)
Theorem C19_find_next_larger : forall T (N : Num T) (ms : list T) delta dmc,
  let lim := nsub (match dmc with Some x => x | None => delta end) (ndiv delta two) in
  let reaches i j := nleb lim (nsub (nth j ms nnan) (nth i ms nnan)) = true in
  length (find_next_larger ms delta dmc) = length ms /\
  forall i, (i < length ms)%nat ->
    let r := nth i (find_next_larger ms delta dmc) 0%nat in
    (r = 0%nat -> forall j, (i < j < length ms)%nat -> ~ reaches i j) /\
    (r <> 0%nat -> (i < r < length ms)%nat /\ reaches i r /\ forall j, (i < j < r)%nat -> ~ reaches i j).
Proof.
  intros T N ms delta dmc lim reaches. unfold find_next_larger. fold lim. cbv zeta.
  assert (FL : forall m jj rest,
    (first_larger lim m jj rest = 0%nat -> (0 < jj)%nat -> forall q, (q < length rest)%nat -> nleb lim (nsub (nth q rest nnan) m) = false) /\
    (first_larger lim m jj rest <> 0%nat -> (0 < jj)%nat -> exists q, first_larger lim m jj rest = (jj + q)%nat /\ (q < length rest)%nat /\
       nleb lim (nsub (nth q rest nnan) m) = true /\ forall q', (q' < q)%nat -> nleb lim (nsub (nth q' rest nnan) m) = false)).
  { intros m jj rest. revert jj. induction rest as [|x rest IH]; intros jj; cbn [first_larger length].
    - split; [intros; lia|congruence].
    - destruct (nleb lim (nsub x m)) eqn:E.
      + split; [intros; lia|]. intros _ Hj. exists 0%nat. repeat split; try lia. exact E.
      + destruct (IH (S jj)) as [A B]. split.
        * intros Z Hj q Hq. destruct q as [|q]; [exact E|]. cbn [nth]. apply A; auto; lia.
        * intros Z Hj. destruct (B Z) as (q & Eq & Hq & R1 & R2); [lia|]. exists (S q). repeat split; [lia|lia|exact R1|].
          intros [|q'] Hq'; [exact E|]. cbn [nth]. apply R2. lia. }
  assert (G : forall suf ii, length (find_next_larger_from lim ii suf) = length suf /\ forall i, (i < length suf)%nat ->
     nth i (find_next_larger_from lim ii suf) 0%nat = first_larger lim (nth i suf nnan) (S (ii + i)) (skipn (S i) suf)).
  { induction suf as [|x suf IH]; intros ii; cbn [find_next_larger_from length]; [split; [reflexivity|intros; lia]|].
    destruct (IH (S ii)) as [L H]. split; [rewrite L; reflexivity|]. intros [|i] Hi; [rewrite Nat.add_0_r; reflexivity|].
    cbn [nth]. rewrite H by lia. replace (S ii + i)%nat with (ii + S i)%nat by lia. reflexivity. }
  destruct (G ms 0%nat) as [L H]. split; [exact L|]. intros i Hi. rewrite H by exact Hi. cbn [Nat.add].
  destruct (FL (nth i ms nnan) (S i) (skipn (S i) ms)) as [A B].
  assert (SK : forall q, nth q (skipn (S i) ms) nnan = nth (S i + q) ms nnan).
  { intros q. rewrite <- (firstn_skipn (S i) ms) at 2. rewrite app_nth2; rewrite firstn_length_le by lia; [|lia]. f_equal. lia. }
  split.
  - intros Z j Hj R. specialize (A Z (Nat.lt_0_succ i) (j - S i)%nat). rewrite skipn_length, SK in A.
    replace (S i + (j - S i))%nat with j in A by lia. unfold reaches in R. rewrite A in R by lia. discriminate.
  - intros Z. destruct (B Z (Nat.lt_0_succ i)) as (q & Eq & Hq & R1 & R2). rewrite skipn_length in Hq. rewrite SK in R1. rewrite Eq.
    repeat split; [lia|lia|exact R1|]. intros j Hj R. specialize (R2 (j - S i)%nat). rewrite SK in R2.
    replace (S i + (j - S i))%nat with j in R2 by lia. unfold reaches in R. rewrite R2 in R by lia. discriminate.
Qed.
Print Assumptions C19_find_next_larger.

Theorem C19_used_pairs : forall T (N : Num T) srt w (a : @args T) o o' b,
  argsort_ok srt -> times_fit a -> calculate srt BMorePositive w a o = (o', Ok b) ->
  let d := dec_val (a_delta a) in
  let dmc := match a_dmc a with Some x => x | None => d end in
  let m i := nth i (a_mags a) nnan in
  exists order, time_order (a_mags a) (nsub (a_mc a) (ndiv d two)) (a_times a) order /\
    let used := next_pairs (fun i j => nleb (nsub dmc (ndiv d two)) (nsub (m j) (m i))) order in
    let mags := map (fun p => bin_elem (a_delta a) (nsub (m (snd p)) (m (fst p)))) used in
    o_mags o' = Some mags /\
    o_idx o' = Some (map snd used) /\
    o_weights o' = option_map (fun ws => map (fun p => nth (snd p) ws nnan) used) (a_weights a) /\
    o_times o' = option_map (fun ts => map (fun p => nth (snd p) ts nnan) used) (a_times a) /\
    o_dmc o' = Some dmc /\
    (order = [] -> b = nnan) /\
    (order <> [] -> mle_estimator mags dmc (a_delta a) (o_weights o') = Ok b).
Proof.
  intros T N srt w a o o' b Hs Ht C. cbv zeta. apply calculate_inv in C. destruct C as (u & R & -> & F).
  assert (Hd : dmc_ok BMorePositive a).
  { intros _. unfold run in R. cbn [is_pos andb] in R. unfold the_dmc in R.
    destruct (nltb (match a_dmc a with Some d => d | None => dec_val (a_delta a) end) zero); [discriminate|reflexivity]. }
  assert (Hc : check a = Ok tt) by (apply run_cases in R; tauto).
  destruct (run_pos_cases srt Hs a BMorePositive (or_intror eq_refl) Ht Hd Hc) as (order & To & _ & E). rewrite R in E.
  exists order. split; [exact To|].
  change (next_pairs _ order) with (next_pairs (far a) order).
  change (map (fun p => bin_elem (a_delta a) (nsub (nth (snd p) (a_mags a) nnan) (nth (fst p) (a_mags a) nnan))) (next_pairs (far a) order))
    with (map (fun p => bin_elem (a_delta a) (pair_diff a p)) (next_pairs (far a) order)).
  assert (Al : forall x, along x (map snd (next_pairs (far a) order)) = option_map (fun l => map (fun p => nth (snd p) l nnan) (next_pairs (far a) order)) x).
  { intros [l|]; [|reflexivity]. cbn. rewrite map_map. reflexivity. }
  destruct F as (F1 & _ & _ & F4 & F5 & _ & _ & _ & F9 & F10). cbn [is_pos] in F9, F10.
  rewrite F1, F4, F5, F9, F10.
  destruct order as [|i order].
  - injection E as ->. cbn [empty_out u_mags u_weights u_idx u_times u_b]. rewrite <- !Al. repeat split; congruence.
  - unfold more_out in E. destruct (small a); [discriminate|].
    destruct (mle_estimator _ _ _ _) as [b'|] eqn:Em; [|discriminate]. cbn [rbind] in E. injection E as ->.
    cbn [u_mags u_weights u_idx u_times u_b]. rewrite <- !Al. repeat split; [discriminate|]. intros _. exact Em.
Qed.
Print Assumptions C19_used_pairs.

(** ** a concrete argsort (used to show that the hypotheses can be met) *)
Lemma xr_sort_total (x y : xr) : nsort_le x y = true \/ nsort_le y x = true.
Proof.
  unfold nsort_le. destruct x as [a| | |], y as [b| | |]; cbn; auto. destruct (Rle_dec a b) as [H|H].
  - left. apply rle_true. exact H.
  - right. apply rle_true. lra.
Qed.
Lemma xr_sort_trans (x y z : xr) : nsort_le x y = true -> nsort_le y z = true -> nsort_le x z = true.
Proof.
  unfold nsort_le. destruct x as [a| | |], y as [b| | |], z as [c| | |]; cbn; auto; try discriminate.
  rewrite !rle_true. lra.
Qed.
Definition xr_argsort : list xr -> list nat := argsort_by nsort_le.
Lemma zip_seq_nth {A} (l : list A) k x i : In (x, i) (zip l (seq k (length l))) -> nth_error l (i - k) = Some x /\ (k <= i)%nat.
Proof.
  revert k. induction l as [|y l IH]; intros k; cbn [length seq zip]; [intros []|]. intros [E|H].
  - injection E as <- <-. rewrite Nat.sub_diag. split; [reflexivity|lia].
  - apply IH in H. destruct H as [H1 H2]. split; [|lia]. replace (i - k)%nat with (S (i - S k))%nat by lia. exact H1.
Qed.
Lemma xr_argsort_ok : argsort_ok xr_argsort.
Proof.
  intros l. unfold xr_argsort, argsort_by.
  set (z := zip l (seq 0 (length l))).
  set (le := fun p q : xr * nat => nsort_le (fst p) (fst q)).
  assert (L : length l = length (seq 0 (length l))) by (rewrite seq_length; reflexivity).
  split.
  - eapply Permutation_trans; [apply Permutation_map, Permutation_sym, isort_perm|]. unfold z. rewrite map_snd_zip by exact L. apply Permutation_refl.
  - assert (S : StronglySorted (leP le) (isort le z)).
    { apply isort_sorted; unfold le; [intros; apply xr_sort_total|intros p q r; apply xr_sort_trans]. }
    apply (StronglySorted_map_in _ _ _ _ S). intros p q Hp Hq R x y Ex Ey.
    apply (Permutation_in _ (Permutation_sym (isort_perm le z))) in Hp. apply (Permutation_in _ (Permutation_sym (isort_perm le z))) in Hq.
    destruct p as [px i], q as [qx j]. apply zip_seq_nth in Hp. apply zip_seq_nth in Hq. rewrite Nat.sub_0_r in *.
    cbn [snd] in Ex, Ey. destruct Hp as [Hp _], Hq as [Hq _]. rewrite Hp in Ex. rewrite Hq in Ey. injection Ex as ->. injection Ey as ->. exact R.
Qed.

(** ** C20: only the order in time matters *)
Open Scope R_scope.
Notation event3 := (xr * R * R)%type.   (* magnitude, weight, time *)
Definition e_m (e : event3) : xr := fst (fst e).
Definition e_w (e : event3) : R := snd (fst e).
Definition e_t (e : event3) : R := snd e.
Definition args3 (wt : bool) (ev : list event3) (mc : R) (delta : dec) (dmc : option R) : @args xr :=
  mkargs (map e_m ev) (Fin mc) delta (if wt then Some (map (fun e => Fin (e_w e)) ev) else None)
         (Some (map (fun e => Fin (e_t e)) ev)) (option_map Fin dmc).
(** a catalogue with the same events at times transformed by [g] *)
Definition retime (g : R -> R) (ev : list event3) : list event3 := map (fun e => (e_m e, e_w e, g (e_t e))) ev.

Lemma consecutive_map {A B} (f : A -> B) l : consecutive (map f l) = map (fun p => (f (fst p), f (snd p))) (consecutive l).
Proof.
  unfold consecutive. destruct l as [|x l]; [reflexivity|]. cbn [map tl]. revert x.
  induction l as [|y l IH]; intros x; [reflexivity|]. cbn [map combine fst snd]. f_equal. apply IH.
Qed.
Lemma find_map' {A B} (f : A -> B) (p : B -> bool) l : find p (map f l) = option_map f (find (fun x => p (f x)) l).
Proof. induction l as [|x l IH]; cbn; [reflexivity|]. destruct (p (f x)); [reflexivity|exact IH]. Qed.
Lemma next_pairs_map {A B} (f : A -> B) far l : next_pairs far (map f l) = map (fun p => (f (fst p), f (snd p))) (next_pairs (fun x y => far (f x) (f y)) l).
Proof.
  induction l as [|x l IH]; [reflexivity|]. cbn [map next_pairs]. rewrite find_map', IH. destruct (find _ l); reflexivity.
Qed.
Lemma find_ext {A} (p q : A -> bool) l : (forall x, p x = q x) -> find p l = find q l.
Proof. intros H. induction l as [|x l IH]; [reflexivity|]. cbn [find]. rewrite H, IH. reflexivity. Qed.
Lemma next_pairs_ext {A} (far far' : A -> A -> bool) l : (forall x y, far x y = far' x y) -> next_pairs far l = next_pairs far' l.
Proof.
  intros H. induction l as [|x l IH]; [reflexivity|]. cbn [next_pairs]. rewrite IH. rewrite (find_ext _ (far' x)) by (intros; apply H). reflexivity.
Qed.

Section Seq.
  Variables (wt : bool) (mc : R) (delta : dec) (dmc : option R).
  Let A3 ev := args3 wt ev mc delta dmc.
  Definition d0 : event3 := (NaN, 0, 0).
  Definition dmcx : xr := match dmc with Some x => Fin x | None => dec_val delta end.
  Definition limx : xr := nsub dmcx (ndiv (dec_val delta) two).
  Definition farx (x y : event3) : bool := nleb limx (nsub (e_m y) (e_m x)).
  Definition diffx (p : event3 * event3) : xr := nsub (e_m (snd p)) (e_m (fst p)).
  Definition wtx (X : list event3) : option (list xr) := if wt then Some (map (fun e => Fin (e_w e)) X) else None.
  Definition binx (k : kind) (x : xr) : xr :=
    match k with BPositive => if nltb zero (dec_val delta) then bin_elem delta x else x | _ => bin_elem delta x end.
  Definition pairsx (k : kind) (X : list event3) : list (event3 * event3) :=
    match k with BPositive => filter (fun p => farx (fst p) (snd p)) (consecutive X) | _ => next_pairs farx X end.
  Definition failx (k : kind) : bool :=
    match k with BPositive => nltb zero (dec_val delta) && nltb (dec_val delta) EPSILON | _ => nltb (dec_val delta) EPSILON end.
  Definition vout (k : kind) (X : list event3) : res (list xr * option (list xr) * xr * (list xr * option (list xr))) :=
    match X with
    | [] => Ok ([], wtx [], NaN, ([], wtx []))
    | _ => if failx k then Err ValueError else
           let P := pairsx k X in
           let ms := map (fun p => binx k (diffx p)) P in let ws := wtx (map snd P) in
           let? b := mle_estimator ms dmcx delta ws in
           Ok (ms, ws, b, match k with BMorePositive => (map e_m X, wtx X) | _ => ([], None) end)
    end.

  Lemma mag_h ev i : mag (A3 ev) i = e_m (nth i ev d0).
  Proof. unfold mag, A3, args3; cbn [a_mags]. change (@nnan xr XR) with (e_m d0). apply map_nth. Qed.
  Lemma far_h ev i j : far (A3 ev) i j = farx (nth i ev d0) (nth j ev d0).
  Proof.
    unfold far, farx, lim, limx. rewrite !mag_h. unfold the_dmc, A3, args3, dmcx; cbn [a_dmc a_delta].
    destruct dmc; reflexivity.
  Qed.
  Lemma along_h ev (f : event3 -> R) order : (forall i, In i order -> (i < length ev)%nat) ->
    along (Some (map (fun e => Fin (f e)) ev)) order = Some (map (fun i => Fin (f (nth i ev d0))) order).
  Proof.
    intros H. unfold along. cbn [option_map]. f_equal. apply map_ext_in. intros i Hi.
    rewrite (nth_indep _ nnan (Fin (f d0))) by (rewrite map_length; apply H; exact Hi).
    rewrite (map_nth (fun e => Fin (f e))). reflexivity.
  Qed.
  Lemma wtx_h ev order : (forall i, In i order -> (i < length ev)%nat) ->
    along (a_weights (A3 ev)) order = wtx (map (fun i => nth i ev d0) order).
  Proof.
    intros H. unfold A3, args3, wtx; cbn [a_weights]. destruct wt; [|reflexivity]. rewrite (along_h ev e_w) by exact H.
    rewrite map_map. reflexivity.
  Qed.

  Lemma pos_pairs_h ev order : map (fun p => (nth (fst p) ev d0, nth (snd p) ev d0)) (pos_pairs (A3 ev) order)
    = pairsx BPositive (map (fun i => nth i ev d0) order).
  Proof.
    cbn [pairsx]. rewrite consecutive_map, filter_map_swap. unfold pos_pairs. f_equal. apply filter_ext.
    intros p. rewrite far_h. reflexivity.
  Qed.
  Lemma next_pairs_h ev order : map (fun p => (nth (fst p) ev d0, nth (snd p) ev d0)) (next_pairs (far (A3 ev)) order)
    = pairsx BMorePositive (map (fun i => nth i ev d0) order).
  Proof.
    cbn [pairsx]. rewrite next_pairs_map. f_equal. apply next_pairs_ext. intros x y. rewrite far_h. reflexivity.
  Qed.
  Lemma consecutive_in {A} (l : list A) p : In p (consecutive l) -> In (fst p) l /\ In (snd p) l.
  Proof.
    unfold consecutive. destruct p as [x y]. cbn [fst snd]. intros H. split; [apply in_combine_l in H; exact H|].
    apply in_combine_r in H. destruct l; [destruct H|right; exact H].
  Qed.
  Lemma next_pairs_in {A} far (l : list A) p : In p (next_pairs far l) -> In (fst p) l /\ In (snd p) l.
  Proof.
    induction l as [|x l IH]; [intros []|]. cbn [next_pairs]. destruct (find (far x) l) as [j|] eqn:E; [|intros H; destruct (IH H); split; right; assumption].
    intros [<-|H]; [|destruct (IH H); split; right; assumption]. cbn [fst snd]. split; [left; reflexivity|right]. apply find_some in E. tauto.
  Qed.

  Lemma run_vout srt k ev : argsort_ok srt -> k = BPositive \/ k = BMorePositive -> dmc_ok k (A3 ev) -> check (A3 ev) = Ok tt ->
    exists order, time_order (a_mags (A3 ev)) (thr (A3 ev)) (a_times (A3 ev)) order /\ Permutation order (f_idx (A3 ev)) /\
    (forall u, run srt k (A3 ev) = Ok u -> exists om ow,
       vout k (map (fun i => nth i ev d0) order) = Ok (u_mags u, u_weights u, u_b u, (om, ow)) /\
       (k = BMorePositive -> om = u_omags u /\ ow = u_oweights u)) /\
    (forall e, run srt k (A3 ev) = Err e -> vout k (map (fun i => nth i ev d0) order) = Err e).
  Proof.
    intros Hs Hk Hd Hc.
    assert (Ht : times_fit (A3 ev)) by (unfold times_fit, A3, args3; cbn [a_times a_mags]; rewrite !map_length; reflexivity).
    destruct (run_pos_cases srt Hs (A3 ev) k Hk Ht Hd Hc) as (order & To & Po & E).
    assert (Lt : forall i, In i order -> (i < length ev)%nat).
    { intros i Hi. apply (Permutation_in _ Po) in Hi. apply f_idx_lt in Hi. unfold A3, args3 in Hi; cbn [a_mags] in Hi. rewrite map_length in Hi. exact Hi. }
    exists order. split; [exact To|]. split; [exact Po|]. rewrite E.
    destruct order as [|i0 order'].
    - split; [|discriminate]. intros u Eu. injection Eu as <-. cbn [map vout empty_out u_mags u_weights u_b u_omags u_oweights].
      assert (W0 : along (a_weights (A3 ev)) [] = wtx []) by (unfold A3, args3, wtx; cbn; destruct wt; reflexivity).
      rewrite W0. eexists _, _. split; [reflexivity|]. auto.
    - remember (i0 :: order') as order. assert (Hne : map (fun i => nth i ev d0) order <> []) by (subst order; discriminate).
      assert (V : vout k (map (fun i => nth i ev d0) order) =
        if failx k then Err ValueError else
           let P := pairsx k (map (fun i => nth i ev d0) order) in
           let ms := map (fun p => binx k (diffx p)) P in let ws := wtx (map snd P) in
           let? b := mle_estimator ms dmcx delta ws in
           Ok (ms, ws, b, match k with BMorePositive => (map e_m (map (fun i => nth i ev d0) order), wtx (map (fun i => nth i ev d0) order)) | _ => ([], None) end)).
      { unfold vout. destruct (map (fun i => nth i ev d0) order); [congruence|reflexivity]. }
      replace (match order with [] => Ok (empty_out (A3 ev)) | _ => match k with BPositive => pos_out (A3 ev) order | _ => more_out (A3 ev) order end end)
        with (match k with BPositive => pos_out (A3 ev) order | _ => more_out (A3 ev) order end) by (subst order; reflexivity).
      rewrite V. clear V. cbv zeta.
      assert (Dm : the_dmc (A3 ev) = dmcx) by (unfold the_dmc, dmcx, A3, args3; cbn [a_dmc a_delta]; destruct dmc; reflexivity).
      destruct Hk as [->| ->].
      + unfold pos_out, small. cbn [failx]. change (a_delta (A3 ev)) with delta. rewrite Dm.
        destruct (nltb zero (dec_val delta) && nltb (dec_val delta) EPSILON); [split; [discriminate|congruence]|].
        assert (Em : map (fun p => binned (A3 ev) (pair_diff (A3 ev) p)) (pos_pairs (A3 ev) order)
          = map (fun p => binx BPositive (diffx p)) (pairsx BPositive (map (fun i => nth i ev d0) order))).
        { rewrite <- pos_pairs_h, map_map. apply map_ext. intros p. unfold pair_diff, diffx. rewrite !mag_h. reflexivity. }
        assert (Ew : along (a_weights (A3 ev)) (map snd (pos_pairs (A3 ev) order)) = wtx (map snd (pairsx BPositive (map (fun i => nth i ev d0) order)))).
        { rewrite wtx_h.
          - f_equal. rewrite <- pos_pairs_h, !map_map. reflexivity.
          - intros i Hi. apply in_map_iff in Hi. destruct Hi as (p & <- & Hp). apply Lt. unfold pos_pairs in Hp. apply filter_In in Hp.
            apply (consecutive_in order p). tauto. }
        rewrite Em, Ew. destruct (mle_estimator _ _ _ _) as [b|e]; cbn [rbind].
        * split; [|discriminate]. intros u Eu. injection Eu as <-. cbn. eexists _, _. split; [reflexivity|]. discriminate.
        * split; [discriminate|]. intros e' Ee. exact Ee || congruence.
      + unfold more_out, small. cbn [failx]. change (a_delta (A3 ev)) with delta. rewrite Dm.
        destruct (nltb (dec_val delta) EPSILON); [split; [discriminate|congruence]|].
        assert (Em : map (fun p => bin_elem delta (pair_diff (A3 ev) p)) (next_pairs (far (A3 ev)) order)
          = map (fun p => binx BMorePositive (diffx p)) (pairsx BMorePositive (map (fun i => nth i ev d0) order))).
        { rewrite <- next_pairs_h, map_map. apply map_ext. intros p. unfold pair_diff, diffx. rewrite !mag_h. reflexivity. }
        assert (Ew : along (a_weights (A3 ev)) (map snd (next_pairs (far (A3 ev)) order)) = wtx (map snd (pairsx BMorePositive (map (fun i => nth i ev d0) order)))).
        { rewrite wtx_h.
          - f_equal. rewrite <- next_pairs_h, !map_map. reflexivity.
          - intros i Hi. apply in_map_iff in Hi. destruct Hi as (p & <- & Hp). apply Lt. apply (next_pairs_in _ order p Hp). }
        rewrite Em, Ew. destruct (mle_estimator _ _ _ _) as [b|e]; cbn [rbind].
        * split; [|discriminate]. intros u Eu. injection Eu as <-. cbn [u_mags u_weights u_b u_omags u_oweights]. eexists _, _. split; [reflexivity|].
          intros _. split; [|symmetry; exact (wtx_h ev order Lt)]. rewrite map_map. apply map_ext. intros i. symmetry. apply mag_h.
        * split; [discriminate|]. intros e' Ee. congruence.
  Qed.

  Lemma vout_retime k g X : vout k (map (fun e => (e_m e, e_w e, g (e_t e))) X) = vout k X.
  Proof.
    set (G := fun e : event3 => (e_m e, e_w e, g (e_t e))).
    destruct X as [|x X]; [reflexivity|]. remember (x :: X) as Y. assert (Y <> []) by (subst; discriminate). clear HeqY x X.
    assert (P : pairsx k (map G Y) = map (fun p => (G (fst p), G (snd p))) (pairsx k Y)).
    { assert (Ef : forall x y, farx (G x) (G y) = farx x y) by reflexivity.
      destruct k; cbn [pairsx]; try (rewrite next_pairs_map; f_equal; apply next_pairs_ext; exact Ef).
      rewrite consecutive_map, filter_map_swap. f_equal. }
    assert (W : forall Z, wtx (map G Z) = wtx Z) by (intros Z; unfold wtx; destruct wt; [rewrite map_map; reflexivity|reflexivity]).
    assert (V : forall Z, Z <> [] -> vout k Z = if failx k then Err ValueError else
           let? b := mle_estimator (map (fun p => binx k (diffx p)) (pairsx k Z)) dmcx delta (wtx (map snd (pairsx k Z))) in
           Ok (map (fun p => binx k (diffx p)) (pairsx k Z), wtx (map snd (pairsx k Z)), b,
               match k with BMorePositive => (map e_m Z, wtx Z) | _ => ([], None) end)).
    { intros [|z Z] HZ; [congruence|reflexivity]. }
    rewrite !V; [|exact H|destruct Y; [congruence|discriminate]]. rewrite P, W, !map_map.
    replace (map (fun x : event3 * event3 => snd (G (fst x), G (snd x))) (pairsx k Y)) with (map G (map snd (pairsx k Y))) by (rewrite map_map; reflexivity).
    rewrite W. reflexivity.
  Qed.
End Seq.

Lemma NoDup_map_inj {A B} (f : A -> B) l a b : NoDup (map f l) -> In a l -> In b l -> f a = f b -> a = b.
Proof.
  induction l as [|x l IH]; cbn; [intros _ []|]. intros H Ha Hb E. inversion H as [|? ? N D]; subst.
  destruct Ha as [<-|Ha], Hb as [<-|Hb]; auto.
  - exfalso. apply N. rewrite E. apply in_map. exact Hb.
  - exfalso. apply N. rewrite <- E. apply in_map. exact Ha.
Qed.
Definition completex (mc : R) (delta : dec) (e : event3) : bool := nleb (nsub (Fin mc) (ndiv (dec_val delta) two)) (e_m e).
Lemma order_events wt ev mc delta dmc order : time_order (a_mags (args3 wt ev mc delta dmc)) (thr (args3 wt ev mc delta dmc)) (a_times (args3 wt ev mc delta dmc)) order ->
  Permutation order (f_idx (args3 wt ev mc delta dmc)) ->
  let X := map (fun i => nth i ev d0) order in
  Permutation X (filter (completex mc delta) ev) /\ StronglySorted (fun x y => e_t x <= e_t y) X.
Proof.
  set (a := args3 wt ev mc delta dmc). intros (_ & _ & S) P X. cbn [a_times a args3] in S. split.
  - unfold X. eapply Permutation_trans; [apply Permutation_map; exact P|]. rewrite <- (compress_keep d0 a ev).
    + unfold keep, a, args3, thr; cbn [a_mags a_mc a_delta]. rewrite map_map. rewrite compress_filter. apply Permutation_refl.
    + unfold a, args3; cbn [a_mags]. rewrite map_length. reflexivity.
  - unfold X. apply (StronglySorted_map_in _ _ _ _ S). intros i j Hi Hj H.
    assert (L : forall q, In q order -> (q < length ev)%nat).
    { intros q Hq. apply (Permutation_in _ P) in Hq. apply f_idx_lt in Hq. unfold a, args3 in Hq; cbn [a_mags] in Hq. rewrite map_length in Hq. exact Hq. }
    specialize (H (Fin (e_t (nth i ev d0))) (Fin (e_t (nth j ev d0)))).
    rewrite !nth_error_map, !(nth_error_nth' ev d0) in H by (apply L; assumption). cbn [option_map] in H.
    specialize (H eq_refl eq_refl). cbn in H. apply rle_true in H. exact H.
Qed.

Theorem C20_only_time_order_matters : forall srt srt' k w w' wt ev ev' g mc delta dmc o o',
  k = BPositive \/ k = BMorePositive -> argsort_ok srt -> argsort_ok srt' ->
  no_inf (map e_m ev) -> NoDup (map e_t ev) -> (forall s t, s < t -> g s < g t) ->
  Permutation ev' (retime g ev) ->
  let '(o1, r1) := calculate srt k w (args3 wt ev mc delta dmc) o in
  let '(o2, r2) := calculate srt' k w' (args3 wt ev' mc delta dmc) o' in
  r1 = r2 /\
  (forall b, r1 = Ok b ->
     o_mags o1 = o_mags o2 /\ o_weights o1 = o_weights o2 /\ est_n o1 = est_n o2 /\
     est_std o1 = est_std o2 /\ est_std_beta o1 = est_std_beta o2 /\
     (k = BMorePositive -> forall wb wb' sb draws, more_positive_std sb wb draws o1 = more_positive_std sb wb' draws o2)).
Proof.
  intros srt srt' k w w' wt ev ev' g mc delta dmc o o' Hk Hs Hs' Hi Nd Hg P.
  set (a := args3 wt ev mc delta dmc). set (a' := args3 wt ev' mc delta dmc).
  assert (Hp : is_pos k = true) by (destruct Hk as [->| ->]; reflexivity).
  assert (CK : check a = check a').
  { change (check a) with (check (args3 wt ev mc delta dmc)). change (check a') with (check (args3 wt ev' mc delta dmc)).
    set (ew := map (fun e : event3 => (e_m e, e_w e)) ev). set (ew' := map (fun e : event3 => (e_m e, e_w e)) ev').
    assert (E1 : forall v, check (args3 wt v mc delta dmc) = check (argsg wt (map (fun e : event3 => (e_m e, e_w e)) v) mc delta)).
    { intros v. unfold check, args3, argsg, argsw, argsu. destruct wt; cbn [a_mags a_weights a_delta]; rewrite !map_map; reflexivity. }
    rewrite !E1. apply check_g_perm.
    - rewrite map_map. exact Hi.
    - apply Permutation_sym. eapply Permutation_trans; [apply Permutation_map; exact P|]. unfold retime. rewrite map_map. apply Permutation_refl. }
  assert (TD : the_dmc a = the_dmc a') by reflexivity.
  destruct (is_pos k && nltb (the_dmc a) zero) eqn:Ed.
  { assert (R1 : run srt k a = Err ValueError) by (unfold run; rewrite Ed; reflexivity).
    assert (R2 : run srt' k a' = Err ValueError) by (unfold run; rewrite <- TD, Ed; reflexivity).
    destruct (calculate srt k w a o) as [o1 r1] eqn:C1. destruct (calculate srt' k w' a' o') as [o2 r2] eqn:C2.
    pose proof (calculate_run srt k w a o) as D1. pose proof (calculate_run srt' k w' a' o') as D2.
    rewrite R1, C1 in D1. rewrite R2, C2 in D2. destruct D1 as (? & D1 & _), D2 as (? & D2 & _).
    injection D1 as _ ->. injection D2 as _ ->. split; [reflexivity|discriminate]. }
  destruct (check a) as [[]|e] eqn:Ck.
  2:{ assert (R1 : run srt k a = Err e) by (unfold run; rewrite Ed, Ck; reflexivity).
      assert (R2 : run srt' k a' = Err e) by (unfold run; rewrite <- TD, Ed, <- CK; reflexivity).
      destruct (calculate srt k w a o) as [o1 r1] eqn:C1. destruct (calculate srt' k w' a' o') as [o2 r2] eqn:C2.
      pose proof (calculate_run srt k w a o) as D1. pose proof (calculate_run srt' k w' a' o') as D2.
      rewrite R1, C1 in D1. rewrite R2, C2 in D2. destruct D1 as (? & D1 & _), D2 as (? & D2 & _).
      injection D1 as _ ->. injection D2 as _ ->. split; [reflexivity|discriminate]. }
  rewrite Hp in Ed. cbn [andb] in Ed.
  assert (Hd : dmc_ok k a) by (intros _; exact Ed). assert (Hd' : dmc_ok k a') by (intros _; exact Ed).
  destruct (run_vout wt mc delta dmc srt k ev Hs Hk Hd Ck) as (order & To & Po & U & V).
  destruct (run_vout wt mc delta dmc srt' k ev' Hs' Hk Hd' (eq_sym CK)) as (order' & To' & Po' & U' & V').
  fold a in To, Po, U, V. fold a' in To', Po', U', V'.
  destruct (order_events wt ev mc delta dmc order To Po) as [PX SX]. destruct (order_events wt ev' mc delta dmc order' To' Po') as [PX' SX'].
  set (X := map (fun i => nth i ev d0) order) in *. set (X' := map (fun i => nth i ev' d0) order') in *.
  assert (Hinj : forall s t, g s = g t -> s = t).
  { intros s t E. destruct (Rtotal_order s t) as [H|[H|H]]; [apply Hg in H; lra|exact H|apply Hg in H; lra]. }
  assert (Nd' : NoDup (map e_t ev')).
  { apply (Permutation_NoDup (l := map g (map e_t ev))).
    - apply Permutation_sym. eapply Permutation_trans; [apply Permutation_map; exact P|]. unfold retime. rewrite !map_map. apply Permutation_refl.
    - clear - Nd Hinj. induction Nd as [|x l Hx Hl IH]; cbn; constructor; [|exact IH]. intros F. apply in_map_iff in F.
      destruct F as (y & E & Hy). apply Hinj in E. subst y. contradiction. }
  assert (PF : Permutation X' (retime g X)).
  { eapply Permutation_trans; [exact PX'|]. eapply Permutation_trans; [apply filter_perm; exact P|].
    unfold retime. rewrite filter_map_swap. apply Permutation_map. apply Permutation_sym. exact PX. }
  assert (EX : X' = retime g X).
  { apply (sorted_perm_unique (fun x y => e_t x <= e_t y)); [|exact SX'| |exact PF].
    - intros x y Hx Hy L1 L2. apply (Permutation_in _ PX') in Hx, Hy. apply filter_In in Hx, Hy.
      apply (NoDup_map_inj e_t ev'); [exact Nd'|tauto|tauto|lra].
    - unfold retime. apply (StronglySorted_map_in _ _ _ _ SX). intros x y _ _ L. unfold e_t; cbn [snd]. fold (e_t x). fold (e_t y).
      destruct (Rle_lt_or_eq_dec _ _ L) as [H|H]; [apply Hg in H; lra|rewrite H; lra]. }
  assert (EV : vout wt delta dmc k X' = vout wt delta dmc k X) by (rewrite EX; apply (vout_retime wt mc delta dmc)).
  destruct (calculate srt k w a o) as [o1 r1] eqn:C1. destruct (calculate srt' k w' a' o') as [o2 r2] eqn:C2.
  apply calculate_inv in C1. apply calculate_inv in C2.
  destruct r1 as [b1|e1], r2 as [b2|e2].
  - destruct C1 as (u1 & R1 & -> & F1). destruct C2 as (u2 & R2 & -> & F2).
    destruct (U u1 R1) as (om1 & ow1 & Q1 & M1). destruct (U' u2 R2) as (om2 & ow2 & Q2 & M2).
    rewrite EV, Q1 in Q2. injection Q2 as E1 E2 E3 E4 E5.
    split; [congruence|]. intros b _. clear b.
    destruct F1 as (F1 & F2' & F3 & F4 & F5 & F6 & F7 & F8 & F9 & F10).
    destruct F2 as (G1 & G2 & G3 & G4 & G5 & G6 & G7 & G8 & G9 & G10).
    assert (Eb : b_value o1 = b_value o2) by (unfold b_value; rewrite F6, G6, E3; reflexivity).
    assert (Em : mags_of o1 = mags_of o2) by (unfold mags_of; rewrite F1, G1, E1; reflexivity).
    assert (Ew : o_weights o1 = o_weights o2) by congruence.
    split; [congruence|]. split; [exact Ew|].
    unfold est_n, est_std, est_std_beta, est_beta. rewrite <- Eb, <- Em, <- Ew. repeat (split; [reflexivity|]).
    intros Km wb wb' sb draws. destruct (M1 Km) as [-> ->]. destruct (M2 Km) as [-> ->].
    unfold more_positive_std. rewrite <- Eb. destruct (b_value o1); [|reflexivity]. cbn [rbind].
    rewrite F2', F3, G2, G3. change (a_mc a') with (a_mc a). change (a_delta a') with (a_delta a).
    unfold bootstrap_std. rewrite (mapM_ext (bootstrap_func sb wb o1 (a_mc a) (a_delta a)) (bootstrap_func sb wb' o2 (a_mc a) (a_delta a))); [reflexivity|].
    intros x. unfold bootstrap_func. rewrite F7, G7, F10, G10, Hp, <- E4, <- TD.
    destruct (gather (u_omags u1) _); [|reflexivity]. cbn [rbind]. rewrite F4, G4, <- E2, F8, G8, <- E5.
    pose proof (run_weights_none srt k a u1 R1) as Hn.
    destruct (u_weights u1) as [uw|] eqn:Eu.
    + destruct (u_oweights u1) as [ow|] eqn:Eo; [|discriminate (proj2 Hn eq_refl)].
      destruct (gather ow _); [|reflexivity]. cbn [rmap rbind]. apply calc_snd_any.
    + cbn [rbind]. apply calc_snd_any.
  - exfalso. destruct C1 as (u1 & R1 & -> & F1). destruct C2 as (R2 & _). destruct (U u1 R1) as (om1 & ow1 & Q1 & _). apply V' in R2.
    rewrite EV, Q1 in R2. discriminate.
  - exfalso. destruct C2 as (u2 & R2 & -> & F2). destruct C1 as (R1 & _). destruct (U' u2 R2) as (om2 & ow2 & Q2 & _). apply V in R1.
    rewrite EV, R1 in Q2. discriminate.
  - destruct C1 as (R1 & _), C2 as (R2 & _). apply V in R1. apply V' in R2. rewrite EV, R1 in R2. injection R2 as ->. split; [reflexivity|discriminate].
Qed.
Print Assumptions C20_only_time_order_matters.
Example C20_example : argsort_ok xr_argsort /\ NoDup (map e_t [(Fin 1, 1, 3); (Fin 2, 1, 1)]) /\
  (forall s t, s < t -> 2 * s + 1 < 2 * t + 1) /\
  Permutation [(Fin 2, 1, 3); (Fin 1, 1, 7)] (retime (fun t => 2 * t + 1) [(Fin 1, 1, 3); (Fin 2, 1, 1)]).
Proof.
  split; [apply xr_argsort_ok|]. split; [cbn; constructor; [cbn; intros [H|[]]; lra|constructor; [intros []|constructor]]|].
  split; [intros; lra|]. cbn. replace (2 * 1 + 1) with 3 by ring. replace (2 * 3 + 1) with 7 by ring. apply perm_swap.
Qed.

(** ** C21: catalogues without a qualifying difference *)
Lemma mle_empty mc delta : mle_estimator [] mc delta None = Ok NaN.
Proof.
  unfold mle_estimator, np_average. cbn [map]. rewrite x_mean_nil. cbn [rbind]. f_equal. unfold beta_to_b_value.
  rewrite x_ofZ, x_ln by lra. rewrite x_dec_val. destruct (nltb zero (Fin (decR delta))).
  - replace (ndiv (Fin (decR delta)) NaN) with NaN by reflexivity. replace (nadd one NaN) with NaN by reflexivity.
    replace (nln NaN) with NaN by reflexivity. destruct (ndiv one (Fin (decR delta))); reflexivity.
  - reflexivity.
Qed.
Lemma mle_empty_w mc delta : mle_estimator (T := xr) [] mc delta (Some []) = Err ZeroDivisionError.
Proof.
  unfold mle_estimator, np_average. change (nsum (@nil xr)) with (Fin 0). rewrite x_zero, x_eqb, (proj2 (req_true 0 0)) by reflexivity. reflexivity.
Qed.
(** no two time-consecutive complete events differ by at least dmc - delta/2 *)
Definition no_positive_difference {T} {N : Num T} (a : @args T) : Prop :=
  let d := dec_val (a_delta a) in
  let dmc := match a_dmc a with Some x => x | None => d end in
  forall order, time_order (a_mags a) (nsub (a_mc a) (ndiv d two)) (a_times a) order ->
  forall i j, In (i, j) (consecutive order) -> nleb (nsub dmc (ndiv d two)) (nsub (nth j (a_mags a) nnan) (nth i (a_mags a) nnan)) = false.
Lemma no_pairs {T} {N : Num T} (a : @args T) order : no_positive_difference a -> time_order (a_mags a) (thr a) (a_times a) order -> pos_pairs a order = [].
Proof.
  intros H To. unfold pos_pairs. destruct (filter _ (consecutive order)) as [|[i j] l] eqn:E; [reflexivity|]. exfalso.
  assert (Hin : In (i, j) (filter (fun p => far a (fst p) (snd p)) (consecutive order))) by (rewrite E; left; reflexivity).
  apply filter_In in Hin. destruct Hin as [Hin F]. cbn [fst snd] in F. specialize (H order To i j Hin).
  unfold far, lim, the_dmc, mag in F. rewrite F in H. discriminate.
Qed.
Theorem C21_unweighted_nan : forall srt w (a : @args xr) o,
  argsort_ok srt -> times_fit a -> binned_ok a -> dmc_ok BPositive a -> a_weights a = None ->
  decR (a_delta a) <= 0 \/ epsR <= decR (a_delta a) ->
  no_positive_difference a ->
  exists o', calculate srt BPositive w a o = (o', Ok NaN) /\ b_value o' = Ok NaN /\ est_n o' = Ok 0%nat /\ o_mags o' = Some [] /\ o_idx o' = Some [].
Proof.
  intros srt w a o Hs Ht Hb Hd Hw He Hno.
  assert (Hc : check a = Ok tt) by (rewrite check_binned, Hw by exact Hb; reflexivity).
  destruct (run_pos_cases srt Hs a BPositive (or_introl eq_refl) Ht Hd Hc) as (order & To & _ & E).
  assert (R : exists u, run srt BPositive a = Ok u /\ u_mags u = [] /\ u_idx u = [] /\ u_b u = NaN).
  { destruct order as [|i order]; [eexists; split; [exact E|]; repeat split|].
    unfold pos_out in E. rewrite (no_pairs a _ Hno To) in E. cbn [map] in E. rewrite Hw in E.
    assert (Z : nltb zero (dec_val (a_delta a)) && small a = false).
    { unfold small, EPSILON. rewrite x_dec_val, x_zero, x_lit, !x_ltb. destruct He as [He|He].
      - rewrite (proj2 (rlt_false _ _)) by exact He. reflexivity.
      - rewrite (proj2 (rlt_false (decR (a_delta a)) _)); [apply andb_false_r|]. unfold epsR in He. exact He. }
    rewrite Z in E. change (along None []) with (@None (list xr)) in E. rewrite mle_empty in E. cbn [rbind] in E.
    eexists. split; [exact E|]. repeat split. }
  destruct R as (u & R & U1 & U2 & U3). pose proof (calculate_run srt BPositive w a o) as C. rewrite R in C.
  destruct C as (o' & C & F). exists o'. rewrite U3 in C. split; [exact C|].
  destruct F as (F1 & _ & _ & _ & F5 & F6 & _). unfold b_value, est_n, b_value, mags_of. rewrite F6, F1, F5, U1, U2, U3. repeat split; reflexivity.
Qed.
Print Assumptions C21_unweighted_nan.
(** the full property is false: with weights the same catalogue raises ZeroDivisionError *)
Theorem C77_weighted_raises_refuted : forall srt w (a : @args xr) ws o,
  argsort_ok srt -> times_fit a -> binned_ok a -> dmc_ok BPositive a ->
  a_weights a = Some ws -> length ws = length (a_mags a) -> (forall v, In v ws -> nltb v zero = false) ->
  decR (a_delta a) <= 0 \/ epsR <= decR (a_delta a) ->
  no_positive_difference a ->
  (exists m, In m (a_mags a) /\ nleb (nsub (a_mc a) (ndiv (dec_val (a_delta a)) two)) m = true) ->
  snd (calculate srt BPositive w a o) = Err ZeroDivisionError.
Proof.
  intros srt w a ws o Hs Ht Hb Hd Hw Hl Hv He Hno (m & Hm & Lm).
  assert (Hc : check a = Ok tt).
  { rewrite check_binned, Hw by exact Hb. rewrite <- Hl, Nat.eqb_refl. cbn [negb].
    destruct (existsb (fun v => nltb v zero) ws) eqn:X; [|reflexivity].
    apply existsb_exists in X. destruct X as (v & Hin & F). rewrite Hv in F by exact Hin. discriminate. }
  destruct (run_pos_cases srt Hs a BPositive (or_introl eq_refl) Ht Hd Hc) as (order & To & _ & E).
  assert (R : run srt BPositive a = Err ZeroDivisionError).
  { destruct order as [|i order].
    - exfalso. apply In_nth_error in Hm. destruct Hm as [q Hq]. destruct To as (_ & I & _).
      assert (F : In q []) by (apply I; exists m; split; assumption). destruct F.
    - unfold pos_out in E. rewrite (no_pairs a _ Hno To) in E. cbn [map] in E. rewrite Hw in E.
      assert (Z : nltb zero (dec_val (a_delta a)) && small a = false).
      { unfold small, EPSILON. rewrite x_dec_val, x_zero, x_lit, !x_ltb. destruct He as [He|He].
        - rewrite (proj2 (rlt_false _ _)) by exact He. reflexivity.
        - rewrite (proj2 (rlt_false (decR (a_delta a)) _)); [apply andb_false_r|]. unfold epsR in He. exact He. }
      rewrite Z in E. change (along (Some ws) []) with (Some (@nil xr)) in E. rewrite mle_empty_w in E. exact E. }
  pose proof (calculate_run srt BPositive w a o) as C. rewrite R in C. destruct C as (o' & -> & _). reflexivity.
Qed.
Print Assumptions C77_weighted_raises_refuted.
(** a decreasing catalogue meets the hypotheses *)
Definition ex21 (ws : option (list xr)) : @args xr := mkargs [Fin 3; Fin 2; Fin 1] (Fin 0) (mkdec 1 0) ws None None.
Lemma ex21_binned ws : binned_ok (ex21 ws).
Proof.
  right. pose proof (check_grid [3; 2; 1] 0 (mkdec 1 0) 0) as K. rewrite check_u in K. cbn [map] in K. unfold ex21; cbn [a_mags a_delta].
  rewrite x_lit. change (IZR 1 / IZR (10 ^ Z.of_nat 15)) with tol15.
  destruct (binning_test _ _ _ _) as [[]|]; [reflexivity| |]; exfalso;
    (assert (X : forall e : exn, Err e <> Ok tt) by discriminate);
    (eapply X; apply K; [rewrite decR1; unfold epsR; simpl; lra|rewrite decR1; intros m [<-|[<-|[<-|[]]]]; [exists 3%Z|exists 2%Z|exists 1%Z]; simpl; lra]).
Qed.
Example C21_example ws : no_positive_difference (ex21 ws) /\ binned_ok (ex21 ws) /\ dmc_ok BPositive (ex21 ws).
Proof.
  split; [|split; [apply ex21_binned|]].
  - intros order (Nd & Hi & S) i j Hin. unfold ex21 in *; cbn [a_mags a_mc a_delta a_times a_dmc] in *.
    assert (L : (i < j < 3)%nat).
    { assert (L3 : forall q, In q order -> (q < 3)%nat).
      { intros q Hq. apply Hi in Hq. destruct Hq as (m & E & _). change 3%nat with (length [Fin 3; Fin 2; Fin 1]). apply nth_error_Some. rewrite E. discriminate. }
      split; [|apply L3; apply (consecutive_in order (i, j) Hin)].
      clear - S Hin. unfold consecutive in Hin. induction S as [|x l S IH F]; [destruct Hin|].
      destruct l as [|y l]; [destruct Hin|]. cbn [tl combine] in Hin. destruct Hin as [E|Hin]; [|apply IH; exact Hin].
      injection E as <- <-. inversion F; subst. assumption. }
    assert (Hlim : forall v, nsub (dec_val (mkdec 1 0)) (ndiv (dec_val (mkdec 1 0)) two) = Fin v -> v = 1 - 1 / 2).
    { intros v. rewrite x_dec_val, x_two, x_div, decR1 by lra. intros E. injection E as <-. reflexivity. }
    rewrite x_dec_val, x_two, x_div, decR1 by lra.
    destruct i as [|[|[|i]]]; destruct j as [|[|[|j]]]; try lia; cbn [nth]; rewrite x_sub, x_sub, x_leb; apply rle_false; lra.
  - intros _. unfold ex21; cbn [a_dmc a_delta]. rewrite x_dec_val, decR1, x_zero, x_ltb. apply rlt_false. lra.
Qed.

(** ** C22: continuous magnitudes and BMorePositive.  The property is false for every input
    with a usable event: delta_m = 0 always raises ValueError *)
Theorem C22_continuous_refuted : forall srt w (a : @args xr) o,
  argsort_ok srt -> times_fit a -> binned_ok a -> dmc_ok BMorePositive a -> a_weights a = None ->
  decR (a_delta a) = 0 ->
  (exists m, In m (a_mags a) /\ nleb (a_mc a) m = true) ->
  snd (calculate srt BMorePositive w a o) = Err ValueError.
Proof.
  intros srt w a o Hs Ht Hb Hd Hw He (m & Hm & Lm).
  assert (Hc : check a = Ok tt) by (rewrite check_binned, Hw by exact Hb; reflexivity).
  destruct (run_pos_cases srt Hs a BMorePositive (or_intror eq_refl) Ht Hd Hc) as (order & To & _ & E).
  assert (R : run srt BMorePositive a = Err ValueError).
  { destruct order as [|i order].
    - exfalso. apply In_nth_error in Hm. destruct Hm as [q Hq]. destruct To as (_ & I & _).
      assert (F : In q []); [|destruct F]. apply I. exists m. split; [exact Hq|]. unfold thr. rewrite x_dec_val, He, x_two, x_div by lra.
      replace (0 / 2) with 0 by field. destruct (a_mc a) as [c| | |]; cbn in *; try assumption. replace (c + - 0) with c by ring. exact Lm.
    - unfold more_out, small, EPSILON in E. rewrite x_dec_val, x_lit, x_ltb, He in E.
      rewrite (proj2 (rlt_true _ _)) in E; [exact E|]. simpl. lra. }
  pose proof (calculate_run srt BMorePositive w a o) as C. rewrite R in C. destruct C as (o' & -> & _). reflexivity.
Qed.
Print Assumptions C22_continuous_refuted.
Example C22_example : binned_ok (mkargs [Fin 1; Fin 2] (Fin 1) (mkdec 0 0) None None (Some (Fin (1/2)))) /\
  snd (calculate xr_argsort BMorePositive true (mkargs [Fin 1; Fin 2] (Fin 1) (mkdec 0 0) None None (Some (Fin (1/2)))) new_obj) = Err ValueError.
Proof.
  assert (B : binned_ok (mkargs [Fin 1; Fin 2] (Fin 1) (mkdec 0 0) None None (Some (Fin (1/2))))).
  { right. cbn [a_mags a_delta]. rewrite x_lit. change (IZR 1 / IZR (10 ^ Z.of_nat 15)) with tol15.
    assert (D0 : decR (mkdec 0 0) = 0) by (unfold decR; simpl; ring).
    assert (NI : no_inf [Fin 1; Fin 2]) by (intros v [<-|[<-|[]]]; split; discriminate).
    rewrite binning_test_unfold_nz by (auto; discriminate). rewrite binning_test_delta_small; [reflexivity|]. rewrite D0. unfold tol15; simpl; lra. }
  split; [exact B|]. apply C22_continuous_refuted; [apply xr_argsort_ok|exact I|exact B| |reflexivity| |].
  - intros _. cbn [a_dmc]. rewrite x_zero, x_ltb. apply rlt_false. lra.
  - cbn [a_delta]. unfold decR; simpl; ring.
  - exists (Fin 2). split; [right; left; reflexivity|]. cbn [a_mc]. rewrite x_leb. apply rle_true. lra.
Qed.
