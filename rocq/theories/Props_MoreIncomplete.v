(** * C26: make_more_incomplete *)
From Coq Require Import List Sorted Permutation Bool Lia ZArith Reals Lra.
From Verif Require Import Base Num XR SortLib RList Binning_model BValue_model Spec_Positive Positive_proofs Props_BValue2 Props_Positive.
Import ListNotations.

Lemma mapM_Forall2 {A B} (f : A -> res B) l r : mapM f l = Ok r <-> Forall2 (fun x y => f x = Ok y) l r.
Proof.
  revert r. induction l as [|x l IH]; intros r; cbn.
  - split; [intros [= <-]; constructor|inversion 1; reflexivity].
  - split.
    + destruct (f x) as [y|e] eqn:E; [|discriminate]. cbn. destruct (mapM f l) as [ys|e] eqn:E2; [|discriminate]. cbn. intros [= <-].
      constructor; [exact E|]. apply IH. reflexivity.
    + inversion 1; subst. rewrite H2. cbn. apply IH in H4. rewrite H4. reflexivity.
Qed.
Lemma Forall2_nth_error {A B} (P : A -> B -> Prop) l r q x y : Forall2 P l r -> nth_error l q = Some x -> nth_error r q = Some y -> P x y.
Proof.
  intros F. revert q. induction F; intros [|q]; cbn; try discriminate; [intros [= <-] [= <-]; assumption|]. intros. eapply IHF; eassumption.
Qed.
Lemma nth_error_seq0 n q : (q < n)%nat -> nth_error (seq 0 n) q = Some q.
Proof. intros H. rewrite (nth_error_nth' (seq 0 n) 0%nat) by (rewrite seq_length; exact H). rewrite seq_nth by exact H. reflexivity. Qed.
Lemma Forall2_len {A B} (P : A -> B -> Prop) l r : Forall2 P l r -> length l = length r.
Proof. induction 1; cbn; congruence. Qed.
Lemma count_pos {A} (p : A -> bool) l : (0 <? count p l)%nat = true <-> exists x, In x l /\ p x = true.
Proof.
  unfold count. rewrite Nat.ltb_lt. split.
  - destruct (filter p l) as [|x f] eqn:E; cbn; [lia|]. intros _. exists x. apply filter_In. rewrite E. left; reflexivity.
  - intros (x & H1 & H2). assert (In x (filter p l)) by (apply filter_In; auto). destruct (filter p l); [destruct H|cbn; lia].
Qed.
Lemma gather_in {A} (xs : list A) idx ys y : gather xs idx = Ok ys -> (In y ys <-> exists i, In i idx /\ nth_error xs i = Some y).
Proof.
  intros H. apply gather_spec in H. induction H as [|i z idx ys E _ IH]; cbn; [split; [intros []|intros (i & [] & _)]|].
  rewrite IH. split.
  - intros [->|(j & Hj & Ej)]; [exists i|exists j]; auto.
  - intros (j & [->|Hj] & Ej); [left; congruence|right; exists j; auto].
Qed.
Lemma nth_error_firstn_lt {A} (l : list A) n q x : nth_error (firstn n l) q = Some x <-> (q < n)%nat /\ nth_error l q = Some x.
Proof.
  revert l q. induction n as [|n IH]; intros l q; [cbn; split; [destruct q; discriminate|lia]|].
  destruct l as [|y l]; [cbn; split; [destruct q; discriminate|intros [_ H]; destruct q; discriminate]|].
  destruct q as [|q]; cbn; [split; [intros H; split; [lia|exact H]|tauto]|]. rewrite IH. split; intros [H1 H2]; split; auto; lia.
Qed.
Lemma compress_where {A} (mask : list bool) (l : list A) d : length mask = length l -> compress mask l = map (fun i => nth i l d) (where_idx mask).
Proof. intros H. apply gather_nth. apply gather_where. exact H. Qed.

Section Any.
  Context {T : Type} {N : Num T}.

  Lemma hidden_flag_spec ms ts dt q : length ms = length ts -> (q < length ms)%nat ->
    exists b, hidden_flag ms ts dt q = Ok b /\
      (b = true <-> forall r, (r < q)%nat -> nltb (nsub (nth q ts nnan) (nth r ts nnan)) dt = true ->
                     nltb (nth q ms nnan) (nth r ms nnan) = true -> False).
  Proof.
    intros L Hq. unfold hidden_flag. rewrite (nth_error_nth' ms nnan Hq), (nth_error_nth' ts nnan) by lia.
    set (t := nth q ts nnan). set (m := nth q ms nnan). set (cl := where_idx _).
    assert (Hcl : forall r, In r cl <-> (r < q)%nat /\ nltb (nsub t (nth r ts nnan)) dt = true).
    { intros r. unfold cl. rewrite where_idx_in, nth_error_map. split.
      - destruct (nth_error (firstn q ts) r) as [t'|] eqn:E; [|discriminate]. cbn. intros [= H]. apply nth_error_firstn_lt in E.
        destruct E as [Hr E]. split; [exact Hr|]. rewrite (nth_error_nth _ _ _ E). exact H.
      - intros [Hr H]. assert (E : nth_error (firstn q ts) r = Some (nth r ts nnan)).
        { apply nth_error_firstn_lt. split; [exact Hr|]. apply nth_error_nth'. lia. }
        rewrite E. cbn. rewrite H. reflexivity. }
    destruct (gather_ok ms cl) as [close G]; [intros i Hi; apply Hcl in Hi; lia|]. rewrite G. cbn [rbind].
    eexists. split; [reflexivity|]. destruct (0 <? count _ _)%nat eqn:C; split; try discriminate; auto.
    - intros F. exfalso. apply count_pos in C. destruct C as (b & Hb & ->). apply in_map_iff in Hb. destruct Hb as (m' & Hm & Hin).
      apply (gather_in _ _ _ m' G) in Hin. destruct Hin as (r & Hr & Er). apply Hcl in Hr. destruct Hr as [Hr1 Hr2].
      apply (F r Hr1 Hr2). rewrite (nth_error_nth _ _ _ Er). exact Hm.
    - intros _ r Hr H1 H2. assert (X : (0 <? count (fun b => b) (map (fun m' => nltb m m') close))%nat = true).
      { apply count_pos. exists true. split; [|reflexivity]. apply in_map_iff. exists (nth r ms nnan). split; [exact H2|].
        apply (gather_in _ _ _ _ G). exists r. split; [apply Hcl; auto|apply nth_error_nth'; lia]. }
      congruence.
  Qed.

  Lemma mask_spec ms ts dt : length ms = length ts ->
    exists mask, mapM (hidden_flag ms ts dt) (seq 0 (length ms)) = Ok mask /\ length mask = length ms /\
      forall q, (q < length ms)%nat ->
        (nth q mask false = true <-> forall r, (r < q)%nat -> nltb (nsub (nth q ts nnan) (nth r ts nnan)) dt = true ->
                     nltb (nth q ms nnan) (nth r ms nnan) = true -> False).
  Proof.
    intros L. assert (X : forall l, (forall q, In q l -> (q < length ms)%nat) -> exists mask, mapM (hidden_flag ms ts dt) l = Ok mask).
    { induction l as [|q l IH]; intros H; cbn; [eexists; reflexivity|].
      destruct (hidden_flag_spec ms ts dt q L (H q (or_introl eq_refl))) as (b & -> & _). cbn.
      destruct IH as [mask ->]; [intros; apply H; right; assumption|]. eexists; reflexivity. }
    destruct (X (seq 0 (length ms))) as [mask E]; [intros q Hq; apply in_seq in Hq; lia|].
    exists mask. split; [exact E|]. apply mapM_Forall2 in E. pose proof (Forall2_len _ _ _ E) as Lm. rewrite seq_length in Lm.
    split; [congruence|]. intros q Hq. destruct (hidden_flag_spec ms ts dt q L Hq) as (b & Hb & Hi).
    assert (F : hidden_flag ms ts dt q = Ok (nth q mask false)).
    { apply (Forall2_nth_error _ _ _ q q _ E); [apply nth_error_seq0; exact Hq|apply nth_error_nth'; lia]. }
    rewrite Hb in F. injection F as <-. exact Hi.
  Qed.
End Any.

(** ** C26.  [order] lists all events in time order; the event at place [q] of this order is
    kept exactly when no event before it closer than [delta_t] is strictly larger; the
    results are the magnitudes and times of the kept events in this order. *)
Theorem C26_kept_events : forall T (N : Num T) srt (ms ts : list T) dt,
  argsort_ok srt -> length ms = length ts ->
  exists order mask,
    Permutation order (seq 0 (length ms)) /\ StronglySorted (not_later ts) order /\ length mask = length order /\
    make_more_incomplete srt ms ts dt
      = Ok (map (fun i => nth i ms nnan) (compress mask order), map (fun i => nth i ts nnan) (compress mask order), mask) /\
    (forall q, (q < length order)%nat ->
       (nth q mask false = true <->
        ~ exists r, (r < q)%nat /\
            nltb (nsub (nth (nth q order 0%nat) ts nnan) (nth (nth r order 0%nat) ts nnan)) dt = true /\
            nltb (nth (nth q order 0%nat) ms nnan) (nth (nth r order 0%nat) ms nnan) = true)) /\
    (ms <> [] -> nth 0 mask false = true).
Proof.
  intros T N srt ms ts dt Hs L. destruct (Hs ts) as [P S]. exists (srt ts).
  destruct (gather_perm ms (srt ts)) as (ms' & Gm & Pm); [rewrite L; exact P|].
  destruct (gather_perm ts (srt ts)) as (ts' & Gt & Pt); [exact P|].
  pose proof (gather_nth _ _ _ nnan Gm) as Em. pose proof (gather_nth _ _ _ nnan Gt) as Et.
  assert (Lo : length (srt ts) = length ms) by (apply Permutation_length in P; rewrite seq_length in P; congruence).
  destruct (mask_spec ms' ts' dt) as (mask & E & Lm & H); [subst; rewrite !map_length; reflexivity|].
  assert (Lmm : length ms' = length (srt ts)) by (rewrite Em, map_length; reflexivity).
  exists mask. split; [rewrite L; exact P|]. split; [exact S|]. split; [congruence|]. split; [|split].
  - unfold make_more_incomplete. rewrite Gm, Gt. cbn [rbind]. rewrite E. cbn [rbind]. rewrite Em, Et, !compress_map. reflexivity.
  - intros q Hq. rewrite H by lia.
    assert (Q : forall (xs : list T) r, (r < length (srt ts))%nat -> nth r (map (fun i => nth i xs nnan) (srt ts)) nnan = nth (nth r (srt ts) 0%nat) xs nnan).
    { intros xs r Hr. rewrite nth_indep with (d' := (fun i => nth i xs nnan) 0%nat) by (rewrite map_length; exact Hr).
      rewrite (map_nth (fun i => nth i xs nnan)). reflexivity. }
    rewrite Em, Et. split.
    + intros F (r & Hr & H1 & H2). apply (F r Hr); rewrite !Q by lia; assumption.
    + intros F r Hr H1 H2. rewrite !Q in H1, H2 by lia. apply F. exists r. auto.
  - intros Hne. apply H; [destruct ms; [congruence|rewrite Lmm, Lo; cbn; lia]|]. intros r Hr. lia.
Qed.
Print Assumptions C26_kept_events.

Open Scope R_scope.
(** a strictly increasing array of times is left alone by argsort *)
Lemma argsort_increasing srt (ts : list R) : argsort_ok srt -> StronglySorted Rlt ts -> srt (map Fin ts) = seq 0 (length ts).
Proof.
  intros Hs Hi. destruct (Hs (map Fin ts)) as [P S]. rewrite map_length in P.
  assert (Mono : forall i j, (i < j < length ts)%nat -> nth i ts 0 < nth j ts 0).
  { clear - Hi. induction Hi as [|x l S IH F]; intros i j Hij; [cbn in Hij; lia|]. cbn [length] in Hij.
    destruct i as [|i]; destruct j as [|j]; try lia; cbn [nth].
    - rewrite Forall_forall in F. apply F. apply nth_In. lia.
    - apply IH. lia. }
  assert (E : forall i, (i < length ts)%nat -> nth_error (map Fin ts) i = Some (Fin (nth i ts 0))).
  { intros i H. rewrite nth_error_map, (nth_error_nth' ts 0 H). reflexivity. }
  symmetry. apply (sorted_perm_unique (not_later (map Fin ts))).
  - intros i j Hi' Hj' H1 H2. apply in_seq in Hi'. apply in_seq in Hj'.
    assert (Hij : forall a b, (a < length ts)%nat -> (b < length ts)%nat -> not_later (map Fin ts) a b -> (a <= b)%nat).
    { intros a b Ha Hb H. specialize (H _ _ (E a Ha) (E b Hb)). cbn in H. apply rle_true in H.
      destruct (le_lt_dec a b) as [|C]; [assumption|]. specialize (Mono b a (conj C Ha)). lra. }
    assert (i <= j)%nat by (apply Hij; [lia|lia|exact H1]). assert (j <= i)%nat by (apply Hij; [lia|lia|exact H2]). lia.
  - assert (G : forall n k, (k + n <= length ts)%nat -> StronglySorted (not_later (map Fin ts)) (seq k n)).
    { induction n as [|n IH]; intros k Hk; cbn; [constructor|]. constructor; [apply IH; lia|]. apply Forall_forall. intros j Hj. apply in_seq in Hj.
      intros x y Ex Ey. rewrite E in Ex by lia. rewrite E in Ey by lia. injection Ex as <-. injection Ey as <-. cbn. apply rle_true.
      left. apply Mono. lia. }
    apply G. lia.
  - exact S.
  - apply Permutation_sym. exact P.
Qed.
Lemma gather_seq0 {A} (l : list A) : gather l (seq 0 (length l)) = Ok l.
Proof.
  destruct l as [|d l]; [reflexivity|]. destruct (gather_ok (d :: l) (seq 0 (length (d :: l)))) as [r E]; [intros i Hi; apply in_seq in Hi; lia|].
  rewrite E. f_equal. rewrite (gather_nth _ _ _ d E). apply map_nth_seq.
Qed.
Lemma compress_all_true {A} (mask : list bool) (l : list A) : length mask = length l -> (forall q, (q < length l)%nat -> nth q mask false = true) -> compress mask l = l.
Proof.
  revert mask. induction l as [|x l IH]; intros [|b mask]; cbn; try discriminate; auto. intros [= L] H.
  pose proof (H 0%nat ltac:(lia)) as H0. cbn in H0. subst b. f_equal. apply IH; [exact L|]. intros q Hq. apply (H (S q)). lia.
Qed.
Lemma compress_nth_mono {A} (mask : list bool) (l : list A) d : length mask = length l ->
  exists pos, length pos = length (compress mask l) /\ StronglySorted lt pos /\ forall q, (q < length pos)%nat ->
    (nth q pos 0 < length l)%nat /\ nth (nth q pos 0%nat) mask false = true /\ nth q (compress mask l) d = nth (nth q pos 0%nat) l d.
Proof.
  intros L. exists (where_idx mask). rewrite (compress_where mask l d L). split; [rewrite map_length; reflexivity|]. split; [apply where_from_sorted|].
  intros q Hq. assert (I : In (nth q (where_idx mask) 0%nat) (where_idx mask)) by (apply nth_In; exact Hq). apply where_idx_in in I.
  split; [rewrite <- L; apply nth_error_Some; congruence|]. split; [apply (nth_error_nth _ _ false) in I; exact I|].
  rewrite nth_indep with (d' := (fun i => nth i l d) 0%nat) by (rewrite map_length; exact Hq).
  rewrite (map_nth (fun i => nth i l d)). reflexivity.
Qed.
Lemma SS_lt_nth l i j : StronglySorted lt l -> (i < j < length l)%nat -> (nth i l 0 < nth j l 0)%nat.
Proof.
  intros H. revert i j. induction H as [|x l S IH F]; intros i j Hij; [cbn in Hij; lia|]. cbn [length] in Hij.
  destruct i as [|i]; destruct j as [|j]; try lia; cbn [nth]; [|apply IH; lia].
  rewrite Forall_forall in F. apply F. apply nth_In. lia.
Qed.

(** applying it again changes nothing (distinct times) *)
Theorem C26_idempotent : forall srt (ms : list xr) (ts : list R) dt ms' ts' mask,
  argsort_ok srt -> length ms = length ts -> NoDup ts ->
  make_more_incomplete srt ms (map Fin ts) dt = Ok (ms', ts', mask) ->
  exists mask', make_more_incomplete srt ms' ts' dt = Ok (ms', ts', mask') /\ forall b, In b mask' -> b = true.
Proof.
  intros srt ms ts dt ms' ts' mask Hs L Nd E.
  assert (L' : length ms = length (map Fin ts)) by (rewrite map_length; exact L).
  destruct (C26_kept_events xr XR srt ms (map Fin ts) dt Hs L') as (order & mask0 & P & S & Lm & E0 & H & _).
  rewrite E in E0.
  assert (X1 : ms' = map (fun i => nth i ms nnan) (compress mask0 order)) by congruence.
  assert (X2 : ts' = map (fun i => nth i (map Fin ts) nnan) (compress mask0 order)) by congruence.
  subst ms' ts'. clear E0.
  assert (Po : forall i, In i order -> (i < length ts)%nat) by (intros i Hi; apply (Permutation_in _ P) in Hi; apply in_seq in Hi; lia).
  assert (Sr : StronglySorted Rlt (map (fun i => nth i ts 0) order)).
  { assert (Ndo : NoDup order) by (apply (Permutation_NoDup (Permutation_sym P)); apply seq_NoDup).
    clear - S Po Nd Ndo. induction S as [|i order S IH F]; cbn; [constructor|]. inversion Ndo; subst.
    constructor; [apply IH; auto; intros; apply Po; right; assumption|].
    apply Forall_forall. intros t Ht. apply in_map_iff in Ht. destruct Ht as (j & <- & Hj).
    rewrite Forall_forall in F. specialize (F j Hj (Fin (nth i ts 0)) (Fin (nth j ts 0))).
    assert (Lij : (i < length ts)%nat /\ (j < length ts)%nat) by (split; apply Po; [left|right]; auto).
    rewrite !nth_error_map, !(nth_error_nth' ts 0) in F by tauto. specialize (F eq_refl eq_refl). cbn in F. apply rle_true in F.
    destruct F as [F|F]; [exact F|]. exfalso. apply H1. rewrite (NoDup_nth ts 0) in Nd. rewrite (Nd i j); tauto. }
  assert (Sc : StronglySorted Rlt (map (fun i => nth i ts 0) (compress mask0 order))).
  { rewrite <- compress_map. clear - Sr. revert mask0. induction Sr as [|x l S IH F]; intros [|[] mask]; cbn; try constructor; auto.
    apply Forall_forall. intros y Hy. rewrite Forall_forall in F. apply F. clear - Hy. revert mask Hy. induction l as [|z l IH]; intros [|[] mask]; cbn; auto; try tauto.
    - intros [->|Hy]; eauto.
    - eauto. }
  set (K := compress mask0 order) in *.
  assert (Et : map (fun i => nth i (map Fin ts) nnan) K = map Fin (map (fun i => nth i ts 0) K)).
  { rewrite map_map. apply map_ext_in. intros i Hi. assert (Hi' : (i < length ts)%nat).
    { apply Po. unfold K in Hi. clear - Hi. revert mask0 Hi. induction order as [|z l IH]; intros [|[] mask]; cbn; auto; try tauto.
      - intros [->|Hy]; eauto.
      - eauto. }
    rewrite (nth_indep _ nnan (Fin 0)) by (rewrite map_length; exact Hi'). apply map_nth. }
  rewrite Et. set (tk := map (fun i => nth i ts 0) K) in *. set (mk := map (fun i => nth i ms nnan) K).
  assert (Lk : length mk = length (map Fin tk)) by (unfold mk, tk; rewrite !map_length; reflexivity).
  destruct (mask_spec mk (map Fin tk) dt Lk) as (mask' & Em & Lm' & Hm).
  assert (All : forall q, (q < length mk)%nat -> nth q mask' false = true).
  { intros q Hq. apply Hm; [exact Hq|]. intros r Hr H1 H2.
    destruct (compress_nth_mono mask0 order 0%nat Lm) as (pos & Lp & Sp & Hp). fold K in Lp, Hp.
    assert (LK : length mk = length K) by apply map_length. rewrite LK in *.
    destruct (Hp q) as (B1 & B2 & B3); [lia|]. destruct (Hp r) as (C1 & C2 & C3); [lia|].
    apply (proj1 (H _ B1) B2). exists (nth r pos 0%nat). split; [apply SS_lt_nth; [exact Sp|lia]|].
    rewrite <- B3, <- C3. rewrite <- Et in H1. unfold mk in H2.
    assert (Q : forall (xs : list xr) p, (p < length K)%nat -> nth p (map (fun i => nth i xs nnan) K) nnan = nth (nth p K 0%nat) xs nnan).
    { intros xs p Hp'. rewrite nth_indep with (d' := (fun i => nth i xs nnan) 0%nat) by (rewrite map_length; exact Hp').
      rewrite (map_nth (fun i => nth i xs nnan)). reflexivity. }
    rewrite !Q in H1, H2 by lia. split; [exact H1|exact H2]. }
  exists mask'. unfold make_more_incomplete. rewrite (argsort_increasing srt tk Hs Sc).
  rewrite map_length in Lk.
  assert (G1 : gather mk (seq 0 (length tk)) = Ok mk) by (rewrite <- Lk; apply gather_seq0).
  assert (G2 : gather (map Fin tk) (seq 0 (length tk)) = Ok (map Fin tk)) by (rewrite <- (map_length Fin tk); apply gather_seq0).
  rewrite G1, G2. cbn [rbind]. rewrite Em. cbn [rbind]. rewrite !compress_all_true; auto.
  - split; [reflexivity|]. intros b Hb. apply In_nth with (d := false) in Hb. destruct Hb as (q & Hq & <-). apply All. lia.
  - rewrite map_length. congruence.
  - rewrite map_length. intros q Hq. apply All. lia.
Qed.
Print Assumptions C26_idempotent.
(** magnitudes 2, 1, 1.5 at times 0, 5, 100 with a window of 60: the second one is dropped *)
Example C26_example : exists mask, make_more_incomplete xr_argsort [Fin 2; Fin 1; Fin (3/2)] (map Fin [0; 5; 100]) (Fin 60)
   = Ok ([Fin 2; Fin (3/2)], map Fin [0; 100], mask).
Proof.
  assert (A : xr_argsort (map Fin [0; 5; 100]) = [0; 1; 2]%nat).
  { change [0;1;2]%nat with (seq 0 (length [0;5;100])). apply argsort_increasing; [apply xr_argsort_ok|]. repeat constructor; lra. }
  unfold make_more_incomplete. rewrite A. cbn [gather nth_error rbind map length seq mapM].
  unfold hidden_flag. cbn [nth_error firstn map where_idx where_from gather rbind count filter length Nat.ltb Nat.leb].
  rewrite !x_sub, !x_ltb. rewrite (proj2 (rlt_true (5 - 0) 60)) by lra. rewrite (proj2 (rlt_false (100 - 0) 60)) by lra. rewrite (proj2 (rlt_false (100 - 5) 60)) by lra.
  cbn [where_idx where_from gather nth_error rbind map]. rewrite x_ltb, (proj2 (rlt_true 1 2)) by lra. cbn. eexists. reflexivity.
Qed.
