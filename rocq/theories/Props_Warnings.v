(** * C196: the warnings of the b- and a-value estimators *)
From Coq Require Import ZArith List Bool String Lia Reals Lra.
From Verif Require Import Base Num XR RList StateM SortLib Binning_model BinTest_proofs BValue_model BValue_run BValue_real Positive_proofs AValue_model AValue_proofs Spec_BValue Spec_Positive Props_BValue Props_BValue2 Props_Positive Props_AValue.
Import ListNotations.
Open Scope R_scope.

(** ** what the warnings say *)
(** the lowest bin above the completeness magnitude is empty: there are magnitudes, and every
    one lies more than half a bin above mc *)
Definition lowest_bin_empty (ms : list R) (mc d : R) : Prop := ms <> [] /\ forall m, In m ms -> d / 2 < m - mc.
(** some magnitude belongs to the complete part *)
Definition some_complete (ms : list R) (mc d : R) : Prop := exists m, In m ms /\ mc - d / 2 <= m.
(** the difference threshold is given and smaller than the bins *)
Definition small_dmc (dmc : option R) (d : R) : Prop := exists x, dmc = Some x /\ x < d.

(** ** proofs *)
Lemma bind_inv {T A B} (m : @M T A) (f : A -> @M T B) o o2 y : bind m f o = (o2, Ok y) -> exists o1 x, m o = (o1, Ok x) /\ f x o1 = (o2, Ok y).
Proof. unfold bind. destruct (m o) as [o1 [x|e]]; [|discriminate]. intros H. exists o1, x. split; [reflexivity|exact H]. Qed.
Lemma sbind_inv {S A B} (m : SM S A) (f : A -> SM S B) s s2 y : sbind m f s = (s2, Ok y) -> exists s1 x, m s = (s1, Ok x) /\ f x s1 = (s2, Ok y).
Proof. unfold sbind. destruct (m s) as [s1 [x|e]]; [|discriminate]. intros H. exists s1, x. split; [reflexivity|exact H]. Qed.
Ltac binv H := let o1 := fresh "oo" in let x := fresh "xx" in let E := fresh "E" in apply bind_inv in H; destruct H as (o1 & x & E & H).
Ltac sinv H := let o1 := fresh "s" in let x := fresh "x" in let E := fresh "E" in apply sbind_inv in H; destruct H as (o1 & x & E & H).

Lemma low_iff ms mc d m0 mt : map Fin ms = m0 :: mt ->
  nltb (ndiv (Fin d) two) (nsub (amin m0 mt) (Fin mc)) = true <-> lowest_bin_empty ms mc d.
Proof.
  destruct ms as [|m ms]; [discriminate|]. intros [= <- <-]. rewrite x_amin, x_two, x_div by lra. rewrite x_sub, x_ltb, rlt_true. unfold lowest_bin_empty. split.
  - intros H. split; [discriminate|]. intros y Hy. pose proof (Rminl_le m ms y Hy). lra.
  - intros [_ H]. apply H. apply Rminl_in.
Qed.
Lemma filtered_iff ms mc d : compress (map (fun m => nleb (nsub (Fin mc) (ndiv (Fin d) two)) m) (map Fin ms)) (map Fin ms) = [] <-> ~ some_complete ms mc d.
Proof.
  rewrite x_two, x_div by lra. rewrite x_sub. unfold some_complete. induction ms as [|m ms IH]; cbn [map compress].
  - split; [intros _ (? & [] & _)|reflexivity].
  - rewrite x_leb. destruct (rle (mc - d / 2) m) eqn:E.
    + split; [discriminate|]. intros H. exfalso. apply H. exists m. split; [left; reflexivity|]. apply rle_true. exact E.
    + apply rle_false in E. rewrite IH. split; intros H (y & Hy & Hl); apply H.
      * destruct Hy as [<- |Hy]; [lra|]. exists y. split; assumption.
      * exists y. split; [right; exact Hy|exact Hl].
Qed.

(** *** b-values *)
Section B.
  Context {T : Type} {N : Num T}.
  Definition hush {A} (m : @M T A) := forall o o' r, m o = (o', r) -> o_warnings o' = o_warnings o.
  Lemma hush_bind {A B} (m : @M T A) (f : A -> @M T B) : hush m -> (forall x, hush (f x)) -> hush (bind m f).
  Proof.
    intros Hm Hf o o' r. unfold bind. destruct (m o) as [o1 [x|e]] eqn:E.
    - intros H. rewrite (Hf x _ _ _ H). exact (Hm _ _ _ E).
    - intros [= <- <-]. exact (Hm _ _ _ E).
  Qed.
  Lemma hush_ret {A} (x : A) : hush (ret x). Proof. intros o o' r [= <- <-]. reflexivity. Qed.
  Lemma hush_raise {A} e : hush (@raise T A e). Proof. intros o o' r [= <- <-]. reflexivity. Qed.
  Lemma hush_lift {A} (x : res A) : hush (lift x). Proof. intros o o' r [= <- <-]. reflexivity. Qed.
  Lemma hush_get : hush get. Proof. intros o o' r [= <- <-]. reflexivity. Qed.
  Lemma hush_modify f : (forall o, o_warnings (f o) = o_warnings o) -> hush (modify f).
  Proof. intros Hf o o' r [= <- <-]. apply Hf. Qed.
End B.
Ltac hush_tac :=
  repeat first
    [ apply hush_ret | apply hush_raise | apply hush_lift | apply hush_get
    | apply hush_modify; intros; reflexivity
    | apply hush_bind; [|intros]
    | match goal with |- hush (match ?x with _ => _ end) => destruct x end
    | match goal with |- hush (if ?x then _ else _) => destruct x end
    | progress cbv zeta ].

Lemma hush_estimate {T} {N : Num T} srt k a : hush (estimate srt k a).
Proof.
  destruct k; unfold estimate, estimate_positive, estimate_more_positive, order_by_time; hush_tac.
Qed.
Lemma warn_new {T} w s (o o' : @obj T) x : warn w s o = (o', Ok x) -> o_warnings o' = o_warnings o ++ (if w then [s] else []).
Proof. unfold warn. destruct w; intros [= <- <-]; [reflexivity|]. rewrite app_nil_r. reflexivity. Qed.

Definition said (w c : bool) (s : string) : list string := if w && c then [s] else [].
Lemma said_in w c s x : In x (said w c s) <-> w = true /\ c = true /\ x = s.
Proof. unfold said. destruct w, c; cbn; intuition congruence. Qed.
Lemma said_none c s : said false c s = []. Proof. reflexivity. Qed.
Definition is_nil {A} (l : list A) : bool := match l with [] => true | _ => false end.
Definition low_b {T} {N : Num T} (ms : list T) mc delta : bool :=
  match ms with [] => false | x :: t => nltb (ndiv (dec_val delta) two) (nsub (amin x t) mc) end.

Lemma b_log {T} {N : Num T} srt k w (a : @args T) o o' v : calculate srt k w a o = (o', Ok v) ->
  o_warnings o' = o_warnings o ++ said w (is_pos k && nltb (the_dmc a) (dec_val (a_delta a))) "dmc small" ++
    said w (low_b (a_mags a) (a_mc a) (a_delta a)) "lowest bin" ++ said w (is_nil (f_mags a)) "no magnitudes".
Proof.
  intros H.
  assert (Base : forall o o' v, base_calculate srt k w a o = (o', Ok v) -> o_warnings o' = o_warnings o ++
    said w (low_b (a_mags a) (a_mc a) (a_delta a)) "lowest bin" ++ said w (is_nil (f_mags a)) "no magnitudes").
  { clear. intros o o' v H. unfold base_calculate in H.
    binv H. injection E as <- _. binv H. injection E as <- _. binv H. injection E as <- _. binv H. injection E as <- _.
    set (o1 := set_weights _ _) in *.
    assert (M1 : mags_of o1 = a_mags a) by reflexivity. assert (W1 : o_weights o1 = a_weights a) by reflexivity. assert (L1 : o_warnings o1 = o_warnings o) by reflexivity. clearbody o1.
    binv H. rename oo into o2, E into E2. binv H. rename oo into o3, E into E3.
    assert (L2 : o_warnings o2 = o_warnings o1 ++ said w (low_b (a_mags a) (a_mc a) (a_delta a)) "lowest bin" /\ mags_of o2 = a_mags a /\ o_weights o2 = a_weights a).
    { unfold sanity_checks in E2. binv E2. injection E as <- <-. rewrite M1 in E2. binv E2.
      assert (Q : o_warnings oo = o_warnings o1 ++ said w (low_b (a_mags a) (a_mc a) (a_delta a)) "lowest bin" /\ mags_of oo = a_mags a /\ o_weights oo = a_weights a).
      { unfold low_b. destruct (a_mags a) as [|m0 mt].
        - injection E as <- _. unfold said. rewrite andb_false_r, app_nil_r. split; [reflexivity|]. split; assumption.
        - binv E. injection E0 as <- _. match type of E with (if ?b then _ else _) _ = _ => destruct b; [|discriminate] end.
          match goal with |- context [said w ?b _] => destruct b end.
          + split; [|unfold warn in E; destruct w; injection E as <- _; split; assumption]. rewrite (warn_new _ _ _ _ _ E). unfold said. rewrite andb_true_r. reflexivity.
          + injection E as <- _. unfold said. rewrite andb_false_r, app_nil_r. split; [reflexivity|]. split; assumption. }
      assert (Eo : o2 = oo). { destruct (o_weights o1) in E2; [destruct (negb _) in E2; [discriminate|]; destruct (existsb _ _) in E2; [discriminate|]|]; injection E2 as <- _; reflexivity. }
      rewrite Eo. exact Q. }
    destruct L2 as (L2 & M2 & W2).
    assert (L3 : o_warnings o3 = o_warnings o2 ++ said w (is_nil (f_mags a)) "no magnitudes").
    { clear - E3 M2 W2. unfold filter_magnitudes in E3. binv E3. injection E as <- <-. cbv zeta in E3. rewrite M2 in E3. fold (thr a) in E3. fold (keep a) in E3.
      binv E3. injection E as <- _. binv E3. injection E as <- E. rewrite (gather_where (keep a) (a_mags a)) in E by apply keep_length. fold (f_mags a) in E. injection E as <-.
      binv E3. injection E as <- _. binv E3. rename oo into o4, E into E4. binv E3. rename oo into o5, E into E5.
      assert (A4 : o_warnings o4 = o_warnings o2).
      { transitivity (o_warnings (set_mags (f_mags a) (set_idx (where_idx (keep a)) o2))); [|reflexivity]. revert E4. match goal with |- ?m _ = _ -> _ => assert (Hh : hush m) by hush_tac end. apply Hh. }
      assert (A5 : o_warnings o5 = o_warnings o4 ++ said w (is_nil (f_mags a)) "no magnitudes").
      { unfold said. destruct (f_mags a); cbn [is_nil].
        - rewrite andb_true_r. exact (warn_new _ _ _ _ _ E5).
        - rewrite andb_false_r, app_nil_r. injection E5 as <- _. reflexivity. }
      rewrite <- A4, <- A5. revert E3. match goal with |- ?m _ = _ -> _ => assert (Hh : hush m) by hush_tac end. apply Hh. }
    rewrite L2 in L3. rewrite L1, <- app_assoc in L3. rewrite <- L3.
    binv H. injection E as <- <-. binv H. injection E as <- _.
    match type of H with ?m ?o' = _ => assert (Hh : hush m); [|rewrite (Hh _ _ _ H); reflexivity] end.
    hush_tac. apply hush_estimate. }
  assert (Pos : is_pos k = true -> o_warnings o' = o_warnings o ++ said w (nltb (the_dmc a) (dec_val (a_delta a))) "dmc small" ++
    said w (low_b (a_mags a) (a_mc a) (a_delta a)) "lowest bin" ++ said w (is_nil (f_mags a)) "no magnitudes").
  { intros K. unfold calculate in H.
    assert (H' : bind (modify (set_times (a_times a))) (fun _ => bind (modify (set_dmc (the_dmc a))) (fun _ => bind (if nltb (the_dmc a) zero then raise ValueError else ret tt)
      (fun _ => bind (if nltb (the_dmc a) (dec_val (a_delta a)) then warn w "dmc small" else ret tt) (fun _ => base_calculate srt k w a)))) o = (o', Ok v))
      by (destruct k; [discriminate|discriminate|exact H|exact H]). clear H. rename H' into H.
    binv H. injection E as <- _. binv H. injection E as <- _. binv H. destruct (nltb _ zero) in E; [discriminate|]. injection E as <- _. binv H.
    rewrite (Base _ _ _ H). rewrite (app_assoc (o_warnings o)). f_equal. unfold said. destruct (nltb (the_dmc a) (dec_val (a_delta a))) in *.
    - rewrite (warn_new _ _ _ _ _ E). rewrite andb_true_r. reflexivity.
    - injection E as <- _. rewrite andb_false_r, app_nil_r. reflexivity. }
  destruct (is_pos k) eqn:K; [exact (Pos eq_refl)|]. cbn [andb]. unfold said at 1. rewrite andb_false_r. cbn [app].
  apply (Base _ _ _ (eq_trans (f_equal (fun f => f o) (ltac:(destruct k; [reflexivity|reflexivity|discriminate|discriminate]) : base_calculate srt k w a = calculate srt k w a)) H)).
Qed.

(** C196 for the b-values: a call of [calculate] that returns a value has added these warnings
    and no others, each at most once, and none if warnings are switched off *)
Theorem C196_b_warnings : forall srt k w ms mc delta weights times dmc o o' v,
  calculate srt k w (mkargs (map Fin ms) (Fin mc) delta weights times (option_map Fin dmc)) o = (o', Ok v) ->
  exists new, o_warnings o' = o_warnings o ++ new /\ NoDup new /\
    (w = false -> new = []) /\
    (w = true -> forall s, In s new <->
       (s = "lowest bin"%string /\ lowest_bin_empty ms mc (decR delta)) \/
       (s = "no magnitudes"%string /\ ~ some_complete ms mc (decR delta)) \/
       (s = "dmc small"%string /\ (k = BPositive \/ k = BMorePositive) /\ small_dmc dmc (decR delta))).
Proof.
  intros srt k w ms mc delta weights times dmc o o' v H. apply b_log in H. cbn [a_mags a_mc a_delta] in H. eexists. split; [exact H|].
  split; [|split].
  - unfold said. destruct w; [|constructor]. cbn [andb]. destruct (is_pos k && _), (low_b _ _ _), (is_nil _); cbn; repeat constructor; cbn; intuition discriminate.
  - intros ->. reflexivity.
  - intros -> s. rewrite !in_app_iff, !said_in. unfold f_mags, keep, thr. cbn [a_mags a_mc a_delta the_dmc a_dmc]. rewrite !x_dec_val.
    assert (L : low_b (map Fin ms) (Fin mc) delta = true <-> lowest_bin_empty ms mc (decR delta)).
    { unfold low_b. rewrite x_dec_val. destruct (map Fin ms) as [|m0 mt] eqn:Em; [|apply (low_iff ms mc (decR delta) m0 mt Em)].
      destruct ms; [|discriminate]. split; [discriminate|]. intros [C _]. congruence. }
    assert (Fm : is_nil (compress (map (fun m => nleb (nsub (Fin mc) (ndiv (Fin (decR delta)) two)) m) (map Fin ms)) (map Fin ms)) = true <-> ~ some_complete ms mc (decR delta)).
    { rewrite <- filtered_iff. destruct (compress _ _); cbn [is_nil]; split; congruence. }
    assert (D : is_pos k && nltb (the_dmc (mkargs (map Fin ms) (Fin mc) delta weights times (option_map Fin dmc))) (Fin (decR delta)) = true
       <-> (k = BPositive \/ k = BMorePositive) /\ small_dmc dmc (decR delta)).
    { rewrite andb_true_iff. unfold the_dmc, small_dmc. cbn [a_dmc a_delta]. match goal with |- (?a /\ ?b) <-> (?c /\ ?d) => enough ((a <-> c) /\ (b <-> d)) by tauto end. split.
      - destruct k; cbn; intuition congruence.
      - destruct dmc as [x|]; cbn [option_map].
        + rewrite x_ltb, rlt_true. split; [intros; exists x; auto|intros (y & [= <-] & Hy); exact Hy].
        + rewrite x_dec_val, x_ltb, rlt_true. split; [lra|intros (y & C & _); discriminate]. }
    rewrite L, Fm, D. intuition.
Qed.
Print Assumptions C196_b_warnings.

(** *** a-values *)
Section A.
  Context {T : Type} {N : Num T}.
  Definition shush {A} (m : SM (@astate T) A) := forall s s' r, m s = (s', r) -> snd s' = snd s.
  Lemma shush_bind {A B} (m : SM astate A) (f : A -> SM astate B) : shush m -> (forall x, shush (f x)) -> shush (sbind m f).
  Proof.
    intros Hm Hf o o' r. unfold sbind. destruct (m o) as [o1 [x|e]] eqn:E.
    - intros H. rewrite (Hf x _ _ _ H). exact (Hm _ _ _ E).
    - intros [= <- <-]. exact (Hm _ _ _ E).
  Qed.
  Lemma shush_ret {A} (x : A) : shush (sret x). Proof. intros o o' r [= <- <-]. reflexivity. Qed.
  Lemma shush_raise {A} e : shush (@sraise astate A e). Proof. intros o o' r [= <- <-]. reflexivity. Qed.
  Lemma shush_lift {A} (x : res A) : shush (slift x). Proof. intros o o' r [= <- <-]. reflexivity. Qed.
  Lemma shush_self : shush self. Proof. intros o o' r [= <- <-]. reflexivity. Qed.
  Lemma shush_upd f : shush (upd f). Proof. intros o o' r [= <- <-]. reflexivity. Qed.
End A.
Ltac shush_tac :=
  repeat first
    [ apply shush_ret | apply shush_raise | apply shush_lift | apply shush_self | apply shush_upd
    | apply shush_bind; [|intros]
    | match goal with |- shush (match ?x with _ => _ end) => destruct x end
    | progress cbv zeta ].
Lemma awarn_new {T} w s (o o' : @astate T) x : awarn w s o = (o', Ok x) -> fst o' = fst o /\ snd o' = snd o ++ (if w then [s] else []).
Proof. unfold awarn. destruct w; intros [= <- <-]; [split; reflexivity|]. split; [reflexivity|]. rewrite app_nil_r. reflexivity. Qed.

Lemma compress_empty {A B} (bs : list bool) (l : list A) (l' : list B) : List.length l = List.length bs -> List.length l' = List.length bs ->
  is_nil (compress bs l) = is_nil (compress bs l').
Proof.
  revert l l'. induction bs as [|b bs IH]; intros [|x l] [|y l'] H1 H2; cbn in *; try discriminate; try reflexivity. destruct b; [reflexivity|]. apply IH; lia.
Qed.
Lemma np_diff_length {T} {N : Num T} (l : list T) : List.length (np_diff l) = List.length (tl l).
Proof.
  destruct l as [|x l]; [reflexivity|]. cbn [np_diff tl]. revert x. induction l as [|y l IH]; intros x; [reflexivity|]. cbn [map2 List.length]. f_equal. apply IH.
Qed.

(** after the events are ordered: as many times as magnitudes *)
Lemma order_lengths {T} {N : Num T} srt (s s' : @astate T) x : a_order_by_time srt s = (s', Ok x) ->
  snd s' = snd s /\ List.length (omags (fst s')) = List.length (otimes (fst s')).
Proof.
  intros H. split.
  - revert H. assert (Hh : shush (a_order_by_time srt)) by (unfold a_order_by_time; shush_tac). apply Hh.
  - unfold a_order_by_time in H. sinv H. injection E as <- <-. cbv zeta in H. sinv H. injection E as <- E1. sinv H. injection E as <- _. sinv H. injection E as <- E2. sinv H. injection E as <- _.
    sinv H. injection E as <- E3. injection H as <-. cbn. apply gather_length in E1, E2. congruence.
Qed.

(** *** the estimation step warns exactly if it leaves no magnitudes *)
Lemma est_log {T} {N : Num T} srt k w a (s s' : @astate T) v : a_estimate srt k w a s = (s', Ok v) -> omags (fst s) <> [] ->
  snd s' = snd s ++ said w (is_nil (omags (fst s'))) "not enough events".
Proof.
  destruct k; cbn [a_estimate].
  - intros H. sinv H. injection E as <- <-. injection H as <- _. intros Hm. destruct (omags (fst s)); [congruence|]. cbn [is_nil]. unfold said. rewrite andb_false_r, app_nil_r. reflexivity.
  - intros H _. unfold a_estimate_positive in H. sinv H. destruct (order_lengths _ _ _ _ E) as [L0 Ln]. sinv H. injection E0 as <- <-. cbv zeta in H.
    sinv H. injection E0 as <- _. sinv H. injection E0 as <- _.
    set (bs := map _ (np_diff (omags (fst s0)))) in *.
    assert (C : is_nil (compress bs (np_diff (otimes (fst s0)))) = is_nil (compress bs (tl (omags (fst s0))))).
    { apply compress_empty; unfold bs; rewrite map_length, !np_diff_length; [|reflexivity]. destruct (omags (fst s0)), (otimes (fst s0)); cbn in *; congruence. }
    assert (Sh : forall (s1 : @astate T) l, omags (fst (put_mags l (fst s1), snd s1)) = l) by reflexivity.
    destruct (compress bs (np_diff (otimes (fst s0)))) as [|t0 tt0] eqn:Et.
    + sinv H. apply awarn_new in E0. destruct E0 as [E1 E2]. injection H as <- _. rewrite E1, E2. cbn [fst snd omags ao_mags put_idx put_mags]. cbn [is_nil] in C. rewrite <- C, L0. unfold said. rewrite andb_true_r. reflexivity.
    + sinv H. injection E0 as <- _. injection H as <- _. cbn [fst snd omags ao_mags put_idx put_mags put_times upd sput]. cbn [is_nil] in C. rewrite <- C, L0. unfold said. rewrite andb_false_r, app_nil_r. reflexivity.
  - destruct (aa_b a) as [b|]; [|discriminate]. intros H _. unfold a_estimate_more_positive in H. sinv H. destruct (order_lengths _ _ _ _ E) as [L0 Ln]. sinv H. injection E0 as <- <-. cbv zeta in H.
    sinv H. injection E0 as <- E1.
    destruct (Nat.eqb_spec (count (fun b0 : bool => b0) (map (fun j : nat => (j =? 0)%nat) (find_next_larger (omags (fst s0)) (dec_val (aa_delta a)) (Some (odmc (fst s0))))))
      (List.length (find_next_larger (omags (fst s0)) (dec_val (aa_delta a)) (Some (odmc (fst s0)))))) as [Q|Q].
    + sinv H. injection E0 as <- _. sinv H. injection E0 as <- _. sinv H. injection E0 as <- _. sinv H. apply awarn_new in E0. destruct E0 as [E2 E3]. injection H as <- _. rewrite E2, E3. cbn [fst snd]. rewrite L0. cbn. unfold said. rewrite andb_true_r. reflexivity.
    + sinv H. injection E0 as <- E2. sinv H. injection E0 as <- _. sinv H. injection E0 as <- E3. sinv H. injection E0 as <- _. sinv H. injection E0 as <- E4. sinv H. injection E0 as <- _.
      injection H as <- _. cbn [fst snd omags ao_mags put_idx put_mags put_times]. rewrite L0.
      apply gather_length in E2. set (nx := find_next_larger _ _ _) in *. 
      assert (Ne : compress (map negb (map (fun j => (j =? 0)%nat) nx)) nx <> []).
      { intros C. apply Q. clear - C. unfold count. induction nx as [|j nx IH]; [reflexivity|]. cbn in *. destruct (j =? 0)%nat; cbn in *; [f_equal; apply IH; exact C|discriminate]. }
      match type of E2 with List.length ?g = _ => destruct g as [|y ys]; [exfalso; destruct (compress _ _) in E2, Ne; [congruence|discriminate]|] end. cbn. unfold said. rewrite andb_false_r, app_nil_r. reflexivity.
Qed.

Lemma a_log {T} {N : Num T} srt k w (a : @aargs T) o ws o' ws' v : a_calculate srt k w a (o, ws) = ((o', ws'), Ok v) ->
  ws' = ws ++ said w (apos k && nltb (the_dmc (to_b a)) (dec_val (aa_delta a))) "dmc small" ++
    said w (low_b (aa_mags a) (aa_mc a) (aa_delta a)) "lowest bin" ++ said w (is_nil (f_mags (to_b a))) "no magnitudes" ++
    said w (negb (is_nil (f_mags (to_b a))) && is_nil (omags o')) "not enough events" /\ a_value o' = Ok v.
Proof.
  intros H.
  assert (Base : forall s s' v, a_base_calculate srt k w a s = (s', Ok v) -> snd s' = snd s ++
    said w (low_b (aa_mags a) (aa_mc a) (aa_delta a)) "lowest bin" ++ said w (is_nil (f_mags (to_b a))) "no magnitudes" ++
    said w (negb (is_nil (f_mags (to_b a))) && is_nil (omags (fst s'))) "not enough events" /\ a_value (fst s') = Ok v).
  { clear. intros s s' v H. unfold a_base_calculate in H. sinv H. injection E as <- _.
    sinv H. sinv H. match type of E with a_sanity_checks _ _ ?q = _ => set (sa := q) in *; assert (M1 : omags (fst sa) = aa_mags a) by reflexivity; assert (L1 : snd sa = snd s) by reflexivity; clearbody sa end.
    match type of E with _ = (?q, _) => rename q into s2 end. match type of E0 with _ = (?q, _) => rename q into s3 end. rename E into E2, E0 into E3.
    assert (L2 : snd s2 = snd sa ++ said w (low_b (aa_mags a) (aa_mc a) (aa_delta a)) "lowest bin" /\ fst s2 = fst sa).
    { unfold a_sanity_checks in E2. sinv E2. injection E as <- <-. rewrite M1 in E2. unfold low_b. destruct (aa_mags a) as [|m0 mt].
      - injection E2 as <-. unfold said. rewrite andb_false_r, app_nil_r. split; reflexivity.
      - sinv E2. injection E as <- _. match type of E2 with (if ?b then _ else _) _ = _ => destruct b; [|discriminate] end.
        match goal with |- context [said w ?b _] => destruct b end.
        + apply awarn_new in E2. destruct E2 as [E1 E2]. rewrite E1, E2. unfold said. rewrite andb_true_r. split; reflexivity.
        + injection E2 as <-. unfold said. rewrite andb_false_r, app_nil_r. split; reflexivity. }
    destruct L2 as (L2 & F2).
    assert (L3 : snd s3 = snd s2 ++ said w (is_nil (f_mags (to_b a))) "no magnitudes" /\ omags (fst s3) = f_mags (to_b a)).
    { assert (M2 : omags (fst s2) = aa_mags a) by (rewrite F2; exact M1). clear - E3 M2. unfold a_filter_magnitudes in E3. sinv E3. injection E as <- <-. cbv zeta in E3. rewrite M2 in E3.
      change (map _ (aa_mags a)) with (keep (to_b a)) in E3. sinv E3. injection E as <- _. sinv E3. injection E as <- E. rewrite (gather_where (keep (to_b a)) (aa_mags a)) in E by apply keep_length.
      change (compress (keep (to_b a)) (aa_mags a)) with (f_mags (to_b a)) in E. injection E as <-.
      sinv E3. injection E as <- _. sinv E3. match type of E with _ = (?q, _) => rename q into s5 end.
      assert (A5 : snd s5 = snd s2 ++ said w (is_nil (f_mags (to_b a))) "no magnitudes" /\ omags (fst s5) = f_mags (to_b a)).
      { unfold said. destruct (f_mags (to_b a)) as [|m ms]; cbn [is_nil].
        - rewrite andb_true_r. apply awarn_new in E. destruct E as [E1 E2]. rewrite E1, E2. split; reflexivity.
        - rewrite andb_false_r, app_nil_r. injection E as <- _. split; reflexivity. }
      destruct k; [injection E3 as <-; exact A5| |]; (sinv E3; injection E0 as <- _; injection E3 as <-; exact A5). }
    destruct L3 as (L3 & F3). sinv H. injection E as <- <-. rewrite F3 in H.
    rewrite <- !app_assoc, L1 in L2 || rewrite L1 in L2.
    destruct (f_mags (to_b a)) as [|m ms] eqn:Ef.
    - sinv H. injection E as <- _. injection H as <- <-. cbn [fst snd negb is_nil andb]. unfold said at 3. rewrite andb_false_r. rewrite L3, L2, <- app_assoc, app_nil_r. split; reflexivity.
    - sinv H. sinv H. injection E0 as <- _. sinv H. injection E0 as <- _. sinv H. injection E0 as <- _. injection H as <- <-. 
      match type of E with _ = (?q, _) => rename q into s4 end. apply est_log in E; [|rewrite F3; discriminate].
      cbn [fst snd negb is_nil andb] in *. split; [|reflexivity]. match goal with |- context [omags (put_a ?p (put_a ?q (fst s4)))] => change (omags (put_a p (put_a q (fst s4)))) with (omags (fst s4)) end.
      rewrite E, L3, L2, <- !app_assoc. reflexivity. }
  assert (Pos : apos k = true -> ws' = ws ++ said w (nltb (the_dmc (to_b a)) (dec_val (aa_delta a))) "dmc small" ++
    said w (low_b (aa_mags a) (aa_mc a) (aa_delta a)) "lowest bin" ++ said w (is_nil (f_mags (to_b a))) "no magnitudes" ++
    said w (negb (is_nil (f_mags (to_b a))) && is_nil (omags o')) "not enough events" /\ a_value o' = Ok v).
  { intros K. destruct (prefix_run srt k w a o ws K) as (P1 & P2 & P3). unfold a_calculate in H.
    assert (H' : sbind (match k with AMorePositive => if falsy (aa_b a) then sraise ValueError else sret tt | _ => sret tt end) (fun _ => sbind (upd (put_times (aa_times a))) (fun _ => sbind (upd (put_dmc (the_dmc (to_b a))))
      (fun _ => sbind (if nltb (the_dmc (to_b a)) zero then sraise ValueError else sret tt) (fun _ => sbind (if nltb (the_dmc (to_b a)) (dec_val (aa_delta a)) then awarn w "dmc small" else sret tt)
      (fun _ => a_base_calculate srt k w a))))) (o, ws) = ((o', ws'), Ok v)) by (destruct k; [discriminate|exact H|exact H]).
    clear H. rename H' into H. sinv H. assert (Es : s = (o, ws)) by (destruct k; [discriminate| |destruct (falsy _) in E; [discriminate|]]; injection E as <- _; reflexivity). subst s.
    sinv H. injection E0 as <- _. sinv H. injection E0 as <- _. sinv H. destruct (nltb _ zero) in E0; [discriminate|]. injection E0 as <- _. sinv H.
    apply Base in H. cbn [fst snd] in H. destruct H as [H1 H2]. split; [|exact H2]. rewrite H1. rewrite (app_assoc ws). f_equal. unfold said. destruct (nltb (the_dmc (to_b a)) (dec_val (aa_delta a))) in *.
    - apply awarn_new in E0. destruct E0 as [_ ->]. rewrite andb_true_r. reflexivity.
    - injection E0 as <- _. rewrite andb_false_r, app_nil_r. reflexivity. }
  destruct (apos k) eqn:K; [exact (Pos eq_refl)|]. cbn [andb]. unfold said at 1. rewrite andb_false_r. cbn [app].
  destruct k; try discriminate. apply Base in H. exact H.
Qed.

(** C196 for the a-values *)
Theorem C196_a_warnings : forall srt k w ms mc delta scaling mref b times dmc o ws o' ws' v,
  a_calculate srt k w (mkaargs (map Fin ms) (Fin mc) delta scaling mref b times (option_map Fin dmc)) (o, ws) = ((o', ws'), Ok v) ->
  exists new, ws' = ws ++ new /\ NoDup new /\
    (w = false -> new = []) /\
    (w = true -> forall s, In s new <->
       (s = "lowest bin"%string /\ lowest_bin_empty ms mc (decR delta)) \/
       (s = "no magnitudes"%string /\ ~ some_complete ms mc (decR delta)) \/
       (s = "dmc small"%string /\ (k = APositive \/ k = AMorePositive) /\ small_dmc dmc (decR delta)) \/
       (s = "not enough events"%string /\ some_complete ms mc (decR delta) /\ a_n o' = Ok 0%nat)).
Proof.
  intros srt k w ms mc delta scaling mref b times dmc o ws o' ws' v H. apply a_log in H. cbn [aa_mags aa_mc aa_delta] in H. destruct H as [H Hv]. eexists. split; [exact H|].
  split; [|split].
  - unfold said. destruct w; [|constructor]. cbn [andb]. destruct (apos k && _), (low_b _ _ _), (is_nil (f_mags _)), (is_nil (omags _)); cbn; repeat constructor; cbn; intuition discriminate.
  - intros ->. reflexivity.
  - intros -> s. rewrite !in_app_iff, !said_in. unfold f_mags, keep, thr. cbn [a_mags a_mc a_delta the_dmc a_dmc to_b aa_mags aa_mc aa_delta aa_dmc]. rewrite !x_dec_val.
    assert (L : low_b (map Fin ms) (Fin mc) delta = true <-> lowest_bin_empty ms mc (decR delta)).
    { unfold low_b. rewrite x_dec_val. destruct (map Fin ms) as [|m0 mt] eqn:Em; [|apply (low_iff ms mc (decR delta) m0 mt Em)].
      destruct ms; [|discriminate]. split; [discriminate|]. intros [C _]. congruence. }
    assert (Fm : is_nil (compress (map (fun m => nleb (nsub (Fin mc) (ndiv (Fin (decR delta)) two)) m) (map Fin ms)) (map Fin ms)) = true <-> ~ some_complete ms mc (decR delta)).
    { rewrite <- filtered_iff. destruct (compress _ _); cbn [is_nil]; split; congruence. }
    assert (Fs : some_complete ms mc (decR delta) \/ ~ some_complete ms mc (decR delta)).
    { destruct (is_nil _) eqn:E in Fm; [right; apply Fm; reflexivity|]. left. clear - E. induction ms as [|m ms IH]; [discriminate|]. cbn [map compress] in E. rewrite x_two, x_div in * by lra. rewrite x_sub, x_leb in *. destruct (rle _ m) eqn:R.
      - exists m. split; [left; reflexivity|]. apply rle_true. exact R.
      - destruct (IH E) as (y & Hy & Hl). exists y. split; [right; exact Hy|exact Hl]. }
    assert (D : apos k && nltb (the_dmc (to_b (mkaargs (map Fin ms) (Fin mc) delta scaling mref b times (option_map Fin dmc)))) (Fin (decR delta)) = true
       <-> (k = APositive \/ k = AMorePositive) /\ small_dmc dmc (decR delta)).
    { rewrite andb_true_iff. unfold the_dmc, small_dmc. cbn [a_dmc a_delta to_b aa_dmc aa_delta]. match goal with |- (?a /\ ?b) <-> (?c /\ ?d) => enough ((a <-> c) /\ (b <-> d)) by tauto end. split.
      - destruct k; cbn; intuition congruence.
      - destruct dmc as [x|]; cbn [option_map].
        + rewrite x_ltb, rlt_true. split; [intros; exists x; auto|intros (y & [= <-] & Hy); exact Hy].
        + rewrite x_dec_val, x_ltb, rlt_true. split; [lra|intros (y & C & _); discriminate]. }
    assert (An : a_n o' = Ok 0%nat <-> is_nil (omags o') = true).
    { unfold a_n. rewrite Hv. cbn [rmap]. destruct (omags o'); cbn [is_nil List.length]; split; congruence. }
    rewrite An. rewrite (andb_true_iff (negb _)), negb_true_iff, <- (not_true_iff_false (is_nil (compress _ _))), L, Fm, D. intuition.
Qed.
Print Assumptions C196_a_warnings.

(** three magnitudes that decrease in time, none in the two lowest bins, and a threshold: two warnings *)
Example C196_case : exists o' v, a_calculate xr_argsort APositive true ex34 (new_aobj, []) = ((o', ["lowest bin"%string; "not enough events"%string]), Ok v).
Proof.
  destruct C34_example as (A1 & A2 & A3).
  destruct (C34_nan_and_empty xr_argsort true ex34 0 new_aobj [] xr_argsort_ok eq_refl A2 A3 eq_refl (fun H => False_ind _ (H eq_refl)) A1) as (o' & ws' & E & Hv & Hn & Hm & _).
  exists o', NaN. rewrite E. apply a_log in E. destruct E as [E _]. rewrite E. unfold omags. rewrite Hm. do 3 f_equal. cbn [app].
  assert (L : low_b (aa_mags ex34) (aa_mc ex34) (aa_delta ex34) = true).
  { unfold ex34. cbn [low_b aa_mags aa_mc aa_delta]. rewrite x_dec_val, decR1. apply (low_iff [3; 2; 1] 0 1 _ _ eq_refl). split; [discriminate|]. intros m [<-|[<-|[<-|[]]]]; lra. }
  assert (D : nltb (the_dmc (to_b ex34)) (dec_val (aa_delta ex34)) = false) by (cbn; apply rlt_false; lra).
  assert (Fm : is_nil (f_mags (to_b ex34)) = false).
  { unfold f_mags, keep, thr, ex34. cbn [to_b a_mags a_mc a_delta aa_mags aa_mc aa_delta map compress]. rewrite x_dec_val, decR1, x_two, x_div by lra. rewrite x_sub, !x_leb. rewrite (proj2 (rle_true _ 3)) by lra. reflexivity. }
  rewrite L, D, Fm. reflexivity.
Qed.
