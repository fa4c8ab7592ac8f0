(** * C35, C36: cutting into sub-samples *)
From Coq Require Import ZArith List Bool Lia Reals Lra Permutation Sorted.
From Verif Require Import Base Num XR RList SortLib BValue_model AValue_model BSig_model Spec_BSig.
Import ListNotations.

(** ** arange and array_split *)
Lemma arange_nil st L n : (L <= st)%nat -> (0 < n)%nat -> arange_nat st L n = [].
Proof. intros H Hn. unfold arange_nat. replace (L - st)%nat with 0%nat by lia. rewrite Nat.div_small by lia. reflexivity. Qed.
Lemma arange_step st L n : (st < L)%nat -> (0 < n)%nat -> arange_nat st L n = st :: arange_nat (st + n) L n.
Proof.
  intros H Hn. unfold arange_nat.
  assert (E : ((L - st + n - 1) / n = S ((L - (st + n) + n - 1) / n))%nat).
  { destruct (Nat.le_gt_cases L (st + n)) as [C|C].
    - replace (L - (st + n))%nat with 0%nat by lia. rewrite (Nat.div_small (0 + n - 1)) by lia.
      replace (L - st + n - 1)%nat with (1 * n + (L - st - 1))%nat by lia. rewrite Nat.div_add_l, Nat.div_small by lia. reflexivity.
    - replace (L - st + n - 1)%nat with (1 * n + (L - (st + n) + n - 1))%nat by lia. rewrite Nat.div_add_l by lia. reflexivity. }
  rewrite E. cbn [seq map]. f_equal; [lia|]. rewrite <- seq_shift, map_map. apply map_ext. intros k. lia.
Qed.
Lemma slice_full {A} st (xs : list A) : slice st (length xs) xs = skipn st xs.
Proof. unfold slice. rewrite <- skipn_length. apply firstn_all. Qed.

Lemma split_pieces {A} (xs : list A) n : (0 < n)%nat -> forall L st, L = (length xs - st)%nat -> (st <= length xs)%nat ->
  pieces n (skipn st xs) (array_split_from st (arange_nat (st + n) (length xs) n) xs) /\
  cumulative st (array_split_from st (arange_nat (st + n) (length xs) n) xs) = arange_nat (st + n) (length xs) n.
Proof.
  intros Hn. induction L as [L IH] using (well_founded_induction lt_wf). intros st -> Hst.
  destruct (Nat.lt_ge_cases (st + n) (length xs)) as [C|C].
  - rewrite arange_step by lia. cbn [array_split_from].
    destruct (IH (length xs - (st + n))%nat ltac:(lia) (st + n)%nat eq_refl ltac:(lia)) as [P Cu].
    assert (Ls : length (slice st (st + n) xs) = n) by (unfold slice; rewrite firstn_length, skipn_length; lia).
    assert (E : skipn st xs = slice st (st + n) xs ++ skipn (st + n) xs).
    { unfold slice. replace (st + n - st)%nat with n by lia. rewrite <- (firstn_skipn n (skipn st xs)) at 1. f_equal.
      rewrite skipn_skipn'. reflexivity. }
    split.
    + rewrite E. constructor; [exact Ls| |exact P]. intros F. apply (f_equal (@length A)) in F. rewrite skipn_length in F. cbn in F. lia.
    + set (ps := array_split_from (st + n) (arange_nat (st + n + n) (length xs) n) xs) in *.
      destruct ps as [|q ps'] eqn:Eq; [inversion P|].
      change (cumulative st (slice st (st + n) xs :: q :: ps')) with ((st + length (slice st (st + n) xs)) :: cumulative (st + length (slice st (st + n) xs)) (q :: ps'))%nat.
      rewrite Ls, Cu. reflexivity.
  - rewrite arange_nil by lia. cbn [array_split_from cumulative]. rewrite slice_full. split; [|reflexivity].
    constructor. rewrite skipn_length. lia.
Qed.

(** C35: the pieces for offset 0; for an offset inside the series; for one beyond its end *)
Theorem C35_pieces : forall A (xs : list A) n offset, (offset < n)%nat ->
  exists idx parts, cut_constant_idx xs n offset = Ok (idx, parts) /\
    concat parts = xs /\ idx = cumulative 0 parts /\ array_split xs idx = parts /\
    (offset = 0%nat -> pieces n xs parts) /\
    (0 < offset < length xs -> exists ps, parts = firstn offset xs :: ps /\ pieces n (skipn offset xs) ps)%nat /\
    (0 < offset /\ length xs <= offset -> parts = [xs])%nat.
Proof.
  intros A xs n offset Ho. unfold cut_constant_idx. rewrite (proj2 (Nat.leb_gt n offset) Ho).
  assert (Pc : forall (l : list A) ps, pieces n l ps -> concat ps = l).
  { intros l ps H. induction H; cbn [concat]; [apply app_nil_r|]. rewrite IHpieces. reflexivity. }
  eexists _, _. split; [reflexivity|]. destruct (Nat.eqb_spec offset 0) as [->|Hz].
  - assert (E : tl (arange_nat 0 (length xs) n) = arange_nat (0 + n) (length xs) n).
    { destruct (Nat.eq_dec (length xs) 0) as [Z|Z]; [rewrite !arange_nil by lia; reflexivity|]. rewrite (arange_step 0) by lia. reflexivity. }
    rewrite E. destruct (split_pieces xs n ltac:(lia) _ 0%nat eq_refl ltac:(lia)) as [P Cu]. change (skipn 0 xs) with xs in P.
    split; [apply Pc, P|]. split; [symmetry; exact Cu|]. split; [reflexivity|]. split; [intros _; exact P|]. split; lia.
  - destruct (Nat.lt_ge_cases offset (length xs)) as [C|C].
    + rewrite arange_step by lia. unfold array_split. cbn [array_split_from].
      destruct (split_pieces xs n ltac:(lia) _ offset eq_refl ltac:(lia)) as [P Cu].
      assert (Es : slice 0 offset xs = firstn offset xs) by (unfold slice; rewrite Nat.sub_0_r; reflexivity). rewrite Es.
      split; [cbn [concat]; rewrite (Pc _ _ P); apply firstn_skipn|].
      split; [|split; [reflexivity|]].
      * set (ps := array_split_from offset _ xs) in *. destruct ps as [|q ps'] eqn:Eq; [inversion P|].
        change (cumulative 0 (firstn offset xs :: q :: ps')) with ((0 + length (firstn offset xs)) :: cumulative (0 + length (firstn offset xs)) (q :: ps'))%nat.
        rewrite firstn_length_le, Nat.add_0_l, Cu by lia. reflexivity.
      * split; [lia|]. split; [|lia]. intros _. eexists. split; [reflexivity|exact P].
    + rewrite arange_nil by lia. unfold array_split. cbn [array_split_from concat]. rewrite slice_full, app_nil_r. change (skipn 0 xs) with xs.
      repeat split; lia.
Qed.
Print Assumptions C35_pieces.
Theorem C35_offset_error : forall A (xs : list A) n offset, (n <= offset)%nat -> cut_constant_idx xs n offset = Err ValueError.
Proof. intros. unfold cut_constant_idx. rewrite (proj2 (Nat.leb_le n offset)) by assumption. reflexivity. Qed.
Print Assumptions C35_offset_error.
Example C35_example : cut_constant_idx [1; 2; 3; 4; 5; 6]%nat 3 1 = Ok ([1; 4]%nat, [[1]; [2; 3; 4]; [5; 6]]%nat).
Proof. reflexivity. Qed.

(** ** C36: windows *)
Definition ceil_div (a n : nat) : nat := ((a + n - 1) / n)%nat.
Lemma ceil_div_0 n : (0 < n)%nat -> ceil_div 0 n = 0%nat.
Proof. intros. unfold ceil_div. apply Nat.div_small. lia. Qed.
Lemma ceil_div_S a n : (0 < a)%nat -> (0 < n)%nat -> ceil_div a n = S (ceil_div (a - n) n).
Proof.
  intros Ha Hn. unfold ceil_div. destruct (Nat.le_gt_cases a n) as [C|C].
  - replace (a - n)%nat with 0%nat by lia. rewrite (Nat.div_small (0 + n - 1)) by lia.
    replace (a + n - 1)%nat with (1 * n + (a - 1))%nat by lia. rewrite Nat.div_add_l, Nat.div_small by lia. reflexivity.
  - replace (a + n - 1)%nat with (1 * n + (a - n + n - 1))%nat by lia. rewrite Nat.div_add_l by lia. reflexivity.
Qed.
Lemma ceil_floor a n : (0 < n)%nat -> ceil_div a n = (if a mod n =? 0 then a / n else S (a / n))%nat.
Proof.
  intros Hn. pose proof (Nat.div_mod a n ltac:(lia)) as D. pose proof (Nat.mod_upper_bound a n ltac:(lia)) as U. unfold ceil_div.
  destruct (Nat.eqb_spec (a mod n) 0) as [E|E].
  - symmetry. apply Nat.div_unique with (n - 1)%nat; [lia|]. nia.
  - symmetry. apply Nat.div_unique with (a mod n - 1)%nat; [lia|]. nia.
Qed.
Lemma seq_S k : seq 0 (S k) = seq 0 k ++ [k].
Proof. rewrite <- Nat.add_1_r, seq_app. reflexivity. Qed.

Lemma split_windows {A} (xs : list A) n : (0 < n)%nat -> forall L st, L = (length xs - st)%nat -> (st < length xs)%nat ->
  array_split_from st (arange_nat (st + n) (length xs) n) xs = map (fun k => window n xs (st + k * n)) (seq 0 (ceil_div (length xs - st) n)).
Proof.
  intros Hn. induction L as [L IH] using (well_founded_induction lt_wf). intros st -> Hst. rewrite (ceil_div_S (length xs - st)) by lia.
  destruct (Nat.lt_ge_cases (st + n) (length xs)) as [C|C].
  - rewrite arange_step by lia. cbn [array_split_from]. rewrite (IH (length xs - (st + n))%nat ltac:(lia) (st + n)%nat eq_refl) by lia.
    cbn [seq map]. f_equal; [unfold slice, window; f_equal; [lia|f_equal; lia]|]. rewrite <- seq_shift, map_map.
    replace (length xs - st - n)%nat with (length xs - (st + n))%nat by lia. apply map_ext. intros k. f_equal. lia.
  - rewrite arange_nil by lia. cbn [array_split_from]. rewrite slice_full. replace (length xs - st - n)%nat with 0%nat by lia.
    rewrite ceil_div_0 by lia. cbn [seq map]. unfold window. rewrite Nat.add_0_r, firstn_all2; [reflexivity|]. rewrite skipn_length. lia.
Qed.
Lemma cut_windows {A} (xs : list A) n ii L : (ii < n)%nat -> L = length xs -> (n <= L)%nat ->
  let idx := (if (ii =? 0)%nat then tl (arange_nat ii L n) else arange_nat ii L n) in
  array_split xs idx = (if (ii =? 0)%nat then [] else [firstn ii xs]) ++ map (window n xs) (map (fun k => ii + k * n)%nat (seq 0 (ceil_div (L - ii) n))).
Proof.
  intros Hi -> HL. cbv zeta. rewrite map_map. destruct (Nat.eqb_spec ii 0) as [->|Hz].
  - rewrite arange_step by lia. cbn [tl app]. apply (split_windows xs n ltac:(lia) _ 0%nat eq_refl). lia.
  - rewrite arange_step by lia. unfold array_split. cbn [array_split_from app]. f_equal; [unfold slice; rewrite Nat.sub_0_r; reflexivity|].
    apply (split_windows xs n ltac:(lia) _ ii eq_refl). lia.
Qed.
Lemma window_length {A} n (xs : list A) j : length (window n xs j) = Nat.min n (length xs - j).
Proof. unfold window. rewrite firstn_length, skipn_length. reflexivity. Qed.

(** the entries of a list of windows that are complete: dropping the short edges *)
Definition edges {B} (n ii L : nat) (l : list B) : list B :=
  let l := if (((L - ii) mod n) =? 0)%nat then l else removelast l in if (ii =? 0)%nat then l else tl l.
Lemma edges_windows {A} (xs : list A) {B} (f : list A -> B) n ii L : (ii < n)%nat -> L = length xs -> (2 * n <= L)%nat ->
  edges n ii L (map f ((if (ii =? 0)%nat then [] else [firstn ii xs]) ++ map (window n xs) (map (fun k => ii + k * n)%nat (seq 0 (ceil_div (L - ii) n)))))
   = map f (map (window n xs) (starts n L ii)).
Proof.
  intros Hi -> HL. unfold edges, starts. rewrite (ceil_floor (length xs - ii) n) by lia.
  destruct (Nat.eqb_spec ((length xs - ii) mod n) 0) as [E|E].
  - destruct (Nat.eqb_spec ii 0) as [->|Hz]; reflexivity.
  - rewrite seq_S, !map_app. cbn [map]. rewrite app_assoc, removelast_last. destruct (Nat.eqb_spec ii 0) as [->|Hz]; reflexivity.
Qed.

Section Part.
  Context {T : Type} {N : Num T}.
  Lemma mapM_pymax (l : list (list T)) : Forall (fun x => x <> []) l -> exists lm, mapM pymax l = Ok lm /\ Forall2 (fun x y => pymax x = Ok y) l lm.
  Proof.
    induction 1 as [|x l Hx F (lm & E & F2)]; [exists []; split; constructor|]. cbn [mapM].
    destruct x as [|y x]; [congruence|]. cbn [pymax]. rewrite E. cbn [rbind]. eexists. split; [reflexivity|]. constructor; [reflexivity|exact F2].
  Qed.
  Lemma tl_map {A B} (f : A -> B) l : tl (map f l) = map f (tl l).
  Proof. destruct l; reflexivity. Qed.
  Lemma removelast_map {A B} (f : A -> B) l : removelast (map f l) = map f (removelast l).
  Proof. induction l as [|x [|y l] IH]; [reflexivity..|]. cbn [map removelast] in *. f_equal. exact IH. Qed.
  Lemma edges_map {A B} (f : A -> B) n ii L l : edges n ii L (map f l) = map f (edges n ii L l).
  Proof. unfold edges. destruct (((L - ii) mod n) =? 0)%nat, (ii =? 0)%nat; rewrite ?removelast_map, ?tl_map; reflexivity. Qed.
  Lemma Forall2_tl {A B} (P : A -> B -> Prop) l l' : Forall2 P l l' -> Forall2 P (tl l) (tl l').
  Proof. destruct 1; [constructor|assumption]. Qed.
  Lemma Forall2_removelast {A B} (P : A -> B -> Prop) l l' : Forall2 P l l' -> Forall2 P (removelast l) (removelast l').
  Proof. induction 1 as [|x y l l' H F IH]; [constructor|]. destruct F; [constructor|]. cbn [removelast] in *. constructor; assumption. Qed.
  Lemma edges_Forall2 {A B} (P : A -> B -> Prop) n ii L l l' : Forall2 P l l' -> Forall2 P (edges n ii L l) (edges n ii L l').
  Proof. intros H. unfold edges. destruct (((L - ii) mod n) =? 0)%nat, (ii =? 0)%nat; auto using Forall2_tl, Forall2_removelast. Qed.

  Lemma partition_windows (mags times mc : list T) n ii : (ii < n)%nat -> (2 * n <= length mags)%nat ->
    length times = length mags -> length mc = length mags ->
    exists lmc, partition1 mags times mc n ii =
      Ok (map (window n mags) (starts n (length mags) ii), map (window n times) (starts n (length mags) ii), lmc) /\
      Forall2 (fun x y => pymax x = Ok y) (map (window n mc) (starts n (length mags) ii)) lmc.
  Proof.
    intros Hi HL Et Em. set (L := length mags) in *. unfold partition1, cut_constant_idx. rewrite (proj2 (Nat.leb_gt n ii) Hi). cbn [rbind]. fold L.
    rewrite (cut_windows mags n ii L Hi eq_refl) by lia. rewrite (cut_windows times n ii L Hi) by lia. rewrite (cut_windows mc n ii L Hi) by lia.
    set (cm := _ ++ map (window n mags) _). set (ct := _ ++ map (window n times) _). set (cc := _ ++ map (window n mc) _).
    assert (Q : (1 <= (L - ii) / n)%nat) by (apply Nat.div_le_lower_bound; lia).
    assert (Qc : ceil_div (L - ii) n = if ((L - ii) mod n =? 0)%nat then ((L - ii) / n)%nat else S ((L - ii) / n)) by (apply ceil_floor; lia).
    assert (Dm := Nat.div_mod (L - ii) n ltac:(lia)). assert (Um := Nat.mod_upper_bound (L - ii) n ltac:(lia)).
    assert (NE : Forall (fun x => x <> []) cc).
    { unfold cc. apply Forall_app. split.
      - destruct (Nat.eqb_spec ii 0); [constructor|]. constructor; [|constructor]. intros F. apply (f_equal (@length T)) in F. rewrite firstn_length in F. cbn in F. lia.
      - apply Forall_forall. intros x Hx. apply in_map_iff in Hx. destruct Hx as (j & <- & Hj). apply in_map_iff in Hj. destruct Hj as (k & <- & Hk).
        apply in_seq in Hk. intros F. apply (f_equal (@length T)) in F. rewrite window_length in F. cbn in F.
        destruct (Nat.eqb_spec ((L - ii) mod n) 0); nia. }
    destruct (mapM_pymax cc NE) as (lm0 & -> & F2). cbn [rbind].
    (* the last piece *)
    assert (CL : (match cm with [] => false | _ => (length (last cm []) <? n)%nat end) = negb (((L - ii) mod n) =? 0)%nat).
    { destruct cm as [|c0 cm'] eqn:Ec.
      - exfalso. unfold cm in Ec. apply app_eq_nil in Ec. destruct Ec as [_ Ec]. apply map_eq_nil, map_eq_nil in Ec. apply (f_equal (@length nat)) in Ec.
        rewrite seq_length in Ec. cbn in Ec. destruct ((L - ii) mod n =? 0)%nat; lia.
      - rewrite <- Ec. unfold cm. destruct (Nat.eqb_spec ((L - ii) mod n) 0) as [E|E]; rewrite Qc; cbn [negb].
        + destruct ((L - ii) / n)%nat as [|q] eqn:Eq; [lia|]. rewrite seq_S, !map_app, app_assoc. cbn [map]. rewrite last_last, window_length. apply Nat.ltb_ge.
          fold L. nia.
        + rewrite seq_S, !map_app, app_assoc. cbn [map]. rewrite last_last, window_length. apply Nat.ltb_lt. fold L. nia. }
    rewrite CL.
    assert (E1 := edges_windows mags (fun x => x) n ii L Hi eq_refl HL). rewrite !map_id in E1. fold cm in E1.
    assert (E2 := edges_windows times (fun x => x) n ii L Hi (eq_sym Et) HL). rewrite !map_id in E2. fold ct in E2.
    assert (E3 := edges_windows mc (fun x => x) n ii L Hi (eq_sym Em) HL). rewrite !map_id in E3. fold cc in E3.
    exists (edges n ii L lm0). rewrite <- E1, <- E2, <- E3. split; [|apply edges_Forall2; exact F2].
    unfold edges, pop_last, pop_first. set (c1 := if negb _ then (removelast cm, _, _) else _).
    assert (C1 : c1 = (if ((L - ii) mod n =? 0)%nat then cm else removelast cm, if ((L - ii) mod n =? 0)%nat then ct else removelast ct, if ((L - ii) mod n =? 0)%nat then lm0 else removelast lm0)).
    { unfold c1. destruct ((L - ii) mod n =? 0)%nat; reflexivity. }
    rewrite C1. clear c1 C1.
    (* the first piece *)
    assert (CF : exists f r, (if ((L - ii) mod n =? 0)%nat then cm else removelast cm) = f :: r /\ (length f <? n)%nat = negb (ii =? 0)%nat).
    { assert (X : (if ((L - ii) mod n =? 0)%nat then cm else removelast cm) = (if (ii =? 0)%nat then [] else [firstn ii mags]) ++ map (window n mags) (starts n L ii)).
      { unfold cm, starts. rewrite Qc. destruct ((L - ii) mod n =? 0)%nat; [reflexivity|]. rewrite seq_S, !map_app. cbn [map]. rewrite app_assoc, removelast_last. reflexivity. }
      rewrite X. destruct (Nat.eqb_spec ii 0) as [->|Hz]; cbn [app].
      - unfold starts. destruct ((L - 0) / n)%nat as [|q]; [lia|]. cbn [seq map]. eexists _, _. split; [reflexivity|]. rewrite window_length. apply Nat.ltb_ge. fold L. lia.
      - eexists _, _. split; [reflexivity|]. rewrite firstn_length. apply Nat.ltb_lt. fold L. lia. }
    destruct CF as (f & r & Ef & Lf). rewrite Ef, Lf. destruct (ii =? 0)%nat; reflexivity.
  Qed.
End Part.

(** every window of n consecutive events is the sub-sample of exactly one offset *)
Theorem C36_every_window_once : forall n L, (0 < n)%nat -> (n <= L)%nat ->
  Permutation (flat_map (starts n L) (seq 0 n)) (seq 0 (L - n + 1)).
Proof.
  intros n L Hn HL. apply NoDup_Permutation.
  - assert (G : forall k, (k <= n)%nat -> NoDup (flat_map (starts n L) (seq 0 k))).
    { induction k as [|k IH]; intros Hk; [constructor|]. rewrite seq_S, flat_map_app. cbn [flat_map]. rewrite app_nil_r.
      assert (Hs : forall j ii, In j (starts n L ii) -> exists q, j = (ii + q * n)%nat).
      { intros j ii Hj. apply in_map_iff in Hj. destruct Hj as (q & <- & _). exists q. reflexivity. }
      assert (ND : forall a b : list nat, NoDup a -> NoDup b -> (forall x, In x a -> ~ In x b) -> NoDup (a ++ b)).
      { clear. induction a as [|x a IH]; intros b Ha Hb D; [exact Hb|]. inversion Ha; subst. cbn. constructor.
        - rewrite in_app_iff. intros [F|F]; [contradiction|]. apply (D x); [left; reflexivity|exact F].
        - apply IH; auto. intros y Hy. apply D. right. exact Hy. }
      apply ND; [apply IH; lia| |].
      - unfold starts. apply FinFun.Injective_map_NoDup; [|apply seq_NoDup]. intros a b E. nia.
      - intros j Hj F. apply in_flat_map in Hj. destruct Hj as (ii & Hi & Hj). apply in_seq in Hi.
        destruct (Hs _ _ Hj) as (q & ->). destruct (Hs _ _ F) as (q' & E).
        assert (q = q' \/ (q < q') \/ (q' < q))%nat as [Q|[Q|Q]] by lia; nia. }
    apply G. lia.
  - apply seq_NoDup.
  - intros j. rewrite in_flat_map, in_seq. split.
    + intros (ii & Hi & Hj). apply in_seq in Hi. apply in_map_iff in Hj. destruct Hj as (q & <- & Hq). apply in_seq in Hq.
      pose proof (Nat.div_mod (L - ii) n ltac:(lia)). nia.
    + intros Hj. exists (j mod n)%nat. pose proof (Nat.mod_upper_bound j n ltac:(lia)). pose proof (Nat.div_mod j n ltac:(lia)). split; [apply in_seq; lia|].
      apply in_map_iff. exists (j / n)%nat. split; [lia|]. apply in_seq.
      assert (j / n < (L - j mod n) / n)%nat; [|lia]. 
      apply Nat.lt_le_trans with (S (j / n)); [lia|]. apply Nat.div_le_lower_bound; nia.
Qed.
Print Assumptions C36_every_window_once.

(** an event of the series: magnitude, time, completeness magnitude *)
Definition event1 := (xr * xr * xr)%type.
Definition ev_m (e : event1) := fst (fst e).
Definition ev_t (e : event1) := snd (fst e).
Definition ev_c (e : event1) := snd e.
(** the events that are complete with respect to their own completeness magnitude *)
Definition complete1 (delta : dec) (ev : list event1) : list event1 :=
  filter (fun e => nleb (nsub (ev_c e) (Fin (decR delta / 2))) (ev_m e)) ev.

Lemma compress_map2 {A B C} (p : A -> B -> bool) (f : C -> A) (g : C -> B) (h : C -> xr) l :
  compress (map2 p (map f l) (map g l)) (map h l) = map h (filter (fun e => p (f e) (g e)) l).
Proof. induction l as [|x l IH]; [reflexivity|]. cbn. destruct (p (f x) (g x)); cbn; rewrite IH; reflexivity. Qed.
Lemma half_fin delta : ndiv (dec_val delta) two = Fin (decR delta / 2).
Proof. rewrite x_dec_val, x_two, x_div by lra. reflexivity. Qed.

Lemma prepare_events srt ev delta n min_num : (min_num <= n)%nat ->
  prepare_1D srt (map ev_m ev) (Array (map ev_c ev)) delta (map ev_t ev) n min_num None
   = Ok (map ev_m (complete1 delta ev), map ev_t (complete1 delta ev), map ev_c (complete1 delta ev)).
Proof.
  intros Hm. unfold prepare_1D. rewrite !map_length, Nat.eqb_refl, (proj2 (Nat.ltb_ge n min_num) Hm). cbn [negb rbind].
  rewrite !map_length, Nat.eqb_refl. cbn [negb]. rewrite half_fin, !compress_map2. reflexivity.
Qed.

Lemma mapM_ext_in {A B} (f g : A -> res B) l : (forall x, In x l -> f x = g x) -> mapM f l = mapM g l.
Proof. induction l as [|x l IH]; intros H; [reflexivity|]. cbn. rewrite (H x) by (left; reflexivity). rewrite IH by (intros; apply H; right; assumption). reflexivity. Qed.
Lemma window_map {A B} (f : A -> B) n l j : window n (map f l) j = map f (window n l j).
Proof. unfold window. rewrite skipn_map, firstn_map. reflexivity. Qed.

(** C36: with completeness magnitudes per event and no x_variable, the iterations use, for
    the offsets ii = 0..n_m-1, the windows of n_m complete events that start at ii, ii + n_m,
    ...; each with the largest completeness magnitude of its events *)
Theorem C36_subsamples : forall srt cdf m wn kw draws ev delta n min_num cons,
  (0 < n)%nat -> (min_num <= n)%nat ->
  let series := complete1 delta ev in
  let run := b_significant_1D srt cdf m wn kw draws (map ev_m ev) (Array (map ev_c ev)) delta (map ev_t ev) n min_num None cons in
  (length series < 3 * n -> run = Ok (NaN, NaN, NaN, NaN))%nat /\
  (3 * n <= length series ->
    exists lmc : nat -> list xr,
      (forall ii, ii < n -> Forall2 (fun j c => pymax (map ev_c (window n series j)) = Ok c) (starts n (length series) ii) (lmc ii)) /\
      run = rmap (summary cdf cons)
        (mapM (fun ii => ac_one srt m wn kw (draws ii) delta min_num
           (map (fun j => map ev_m (window n series j)) (starts n (length series) ii),
            map (fun j => map ev_t (window n series j)) (starts n (length series) ii), lmc ii)) (seq 0 n)))%nat.
Proof.
  intros srt cdf m wn kw draws ev delta n min_num cons Hn Hm series run. subst run. unfold b_significant_1D.
  rewrite prepare_events by exact Hm. cbn [rbind]. fold series. rewrite (proj2 (Nat.eqb_neq n 0)) by lia. rewrite map_length.
  assert (Hn' : (0 < INR n)%R) by (apply lt_0_INR; exact Hn).
  assert (Eg : nltb (ndiv (ofnat (length series)) (ofnat n)) (ofZ 3) = (length series <? 3 * n)%nat).
  { unfold ofnat. change (@ofZ xr _) with (fun z => Fin (IZR z)). cbv beta. rewrite <- !INR_IZR_INZ. rewrite x_div by lra. rewrite x_ltb.
    destruct (Nat.ltb_spec (length series) (3 * n)) as [C|C]; [apply rlt_true|apply rlt_false].
    - apply lt_INR in C. rewrite mult_INR in C. cbn [INR] in C. apply (Rmult_lt_reg_r (INR n)); [lra|]. unfold Rdiv. rewrite Rmult_assoc, Rinv_l; lra.
    - apply le_INR in C. rewrite mult_INR in C. cbn [INR] in C. apply (Rmult_le_reg_r (INR n)); [lra|]. unfold Rdiv. rewrite Rmult_assoc, Rinv_l; lra. }
  rewrite Eg. split; intros C.
  - rewrite (proj2 (Nat.ltb_lt _ _) C). reflexivity.
  - rewrite (proj2 (Nat.ltb_ge _ _) C).
    assert (P : forall ii, (ii < n)%nat -> exists lmc, partition1 (map ev_m series) (map ev_t series) (map ev_c series) n ii =
       Ok (map (fun j => map ev_m (window n series j)) (starts n (length series) ii), map (fun j => map ev_t (window n series j)) (starts n (length series) ii), lmc) /\
       Forall2 (fun j c => pymax (map ev_c (window n series j)) = Ok c) (starts n (length series) ii) lmc).
    { intros ii Hi. destruct (partition_windows (map ev_m series) (map ev_t series) (map ev_c series) n ii Hi) as (lmc & E & F); rewrite ?map_length; try lia.
      exists lmc. rewrite map_length in *. split.
      - rewrite E. do 2 f_equal. f_equal; apply map_ext; intros j; apply window_map.
      - clear - F. revert lmc F. generalize (starts n (length series) ii). induction l as [|j l IH]; intros lmc F; cbn [map] in F; inversion F; subst; constructor.
        + rewrite <- window_map. assumption.
        + apply IH. assumption. }
    exists (fun ii => match partition1 (map ev_m series) (map ev_t series) (map ev_c series) n ii with Ok (_, _, l) => l | _ => [] end). split.
    + intros ii Hi. destruct (P ii Hi) as (lmc & -> & F). exact F.
    + match goal with |- rbind (mapM ?f ?l) _ = rmap _ (mapM ?g ?l) => assert (E : mapM f l = mapM g l) end.
      { apply mapM_ext_in. intros ii Hi. apply in_seq in Hi. destruct (P ii ltac:(lia)) as (lmc & -> & _). cbn [rbind]. reflexivity. }
      rewrite E. destruct (mapM _ _); reflexivity.
Qed.
Print Assumptions C36_subsamples.
