(** * The positive estimators in terms of the time order of the complete events *)
From Coq Require Import List Sorted Permutation Bool Lia ZArith.
From Verif Require Import Base Num SortLib RList Binning_model BValue_model BValue_run Spec_BValue BValue_proofs Spec_Positive.
Import ListNotations.

Lemma gather_nth {A} (xs : list A) idx ys d : gather xs idx = Ok ys -> ys = map (fun i => nth i xs d) idx.
Proof.
  intros H. apply gather_spec in H. induction H as [|i y idx ys E _ IH]; [reflexivity|]. cbn [map]. f_equal; [|exact IH].
  symmetry. apply nth_error_nth. exact E.
Qed.
Lemma StronglySorted_map_in {A B} (R : A -> A -> Prop) (Q : B -> B -> Prop) (f : A -> B) l :
  StronglySorted R l -> (forall x y, In x l -> In y l -> R x y -> Q (f x) (f y)) -> StronglySorted Q (map f l).
Proof.
  induction 1 as [|x l S IH F]; intros H; cbn; [constructor|]. constructor.
  - apply IH. intros a b Ha Hb. apply H; right; assumption.
  - rewrite Forall_forall in *. intros y Hy. apply in_map_iff in Hy. destruct Hy as (z & <- & Hz).
    apply H; [left; reflexivity|right; exact Hz|apply F; exact Hz].
Qed.
Lemma map_nth_seq {A} (l : list A) d : map (fun i => nth i l d) (seq 0 (length l)) = l.
Proof.
  induction l as [|x l IH]; [reflexivity|]. cbn [length seq map nth]. f_equal.
  rewrite <- seq_shift, map_map. exact IH.
Qed.
Lemma gather_perm {A} (l : list A) s : Permutation s (seq 0 (length l)) -> exists l', gather l s = Ok l' /\ Permutation l' l.
Proof.
  intros P. destruct (gather_ok l s) as [l' E].
  { intros i Hi. apply (Permutation_in _ P) in Hi. apply in_seq in Hi. lia. }
  exists l'. split; [exact E|]. destruct l as [|d l].
  - apply Permutation_sym, Permutation_nil in P. subst s. injection E as <-. constructor.
  - rewrite (gather_nth _ _ _ d E). eapply Permutation_trans; [apply Permutation_map; exact P|]. rewrite map_nth_seq. apply Permutation_refl.
Qed.
Lemma map2_map {A B C D} (f : A -> B -> C) (g : D -> A) (h : D -> B) l : map2 f (map g l) (map h l) = map (fun x => f (g x) (h x)) l.
Proof. induction l as [|x l IH]; cbn; [reflexivity|]. rewrite IH. reflexivity. Qed.
Lemma combine_tl_snd {A} (l : list A) : map snd (combine l (tl l)) = tl l.
Proof.
  destruct l as [|x l]; [reflexivity|]. cbn [tl]. revert x. induction l as [|y l IH]; intros x; [reflexivity|].
  cbn [combine map snd]. f_equal. apply IH.
Qed.
Lemma tl_map_pairs {A B} (g : A -> B) l : tl (map g l) = map (fun p => g (snd p)) (consecutive l).
Proof.
  unfold consecutive. rewrite <- (map_map snd g), combine_tl_snd. destruct l; reflexivity.
Qed.

Lemma SS_lt_NoDup l : StronglySorted lt l -> NoDup l.
Proof.
  induction 1 as [|x l S IH F]; constructor; auto. rewrite Forall_forall in F. intros Hx. specialize (F x Hx). lia.
Qed.

Section Any.
  Context {T : Type} {N : Num T}.
  Variable srt : list T -> list nat.
  Hypothesis Hsrt : argsort_ok srt.

  Definition mag (a : @args T) (i : nat) : T := nth i (a_mags a) nnan.
  Definition along (x : option (list T)) (order : list nat) : option (list T) :=
    option_map (fun l => map (fun i => nth i l nnan) order) x.
  Definition times_fit (a : @args T) : Prop := match a_times a with None => True | Some ts => length ts = length (a_mags a) end.

  Lemma f_idx_lt a i : In i (f_idx a) -> i < length (a_mags a).
  Proof.
    intros H. apply where_idx_in in H. apply nth_error_Some. intros E.
    assert (nth_error (keep a) i = None) by (unfold keep; rewrite nth_error_map, E; reflexivity). congruence.
  Qed.
  Lemma compress_keep {A} (d : A) a xs : length xs = length (a_mags a) -> compress (keep a) xs = map (fun i => nth i xs d) (f_idx a).
  Proof. intros H. apply gather_nth. apply gather_where. rewrite keep_length. congruence. Qed.

  Lemma ordered_spec k a : is_pos k = true -> check a = Ok tt -> times_fit a ->
    exists ts order, f_times k a = Ok ts /\ time_order (a_mags a) (thr a) (a_times a) order /\
      Permutation order (f_idx a) /\ (order = [] <-> f_mags a = []) /\
      (f_mags a = [] -> ts = along (a_times a) order /\ f_weights a = along (a_weights a) order) /\
      ordered srt (f_mags a) (f_weights a) (f_idx a) ts
      = Ok (map (mag a) order, along (a_weights a) order, order, along (a_times a) order).
  Proof.
    intros Hk Hc Ht. pose proof (check_len a Hc) as Hw.
    assert (Fm : f_mags a = map (mag a) (f_idx a)) by (apply compress_keep; reflexivity).
    assert (Fw : f_weights a = along (a_weights a) (f_idx a)).
    { unfold f_weights, along. destruct (a_weights a) as [ws|]; [|reflexivity]. cbn [option_map]. rewrite (compress_keep nnan) by exact Hw. reflexivity. }
    assert (Fn : forall order, Permutation order (f_idx a) -> (order = [] <-> f_mags a = [])).
    { intros order P. rewrite Fm. split.
      - intros ->. apply Permutation_nil in P. rewrite P. reflexivity.
      - intros E. apply map_eq_nil in E. rewrite E in P. apply Permutation_sym, Permutation_nil in P. exact P. }
    assert (Fi : forall order, Permutation order (f_idx a) -> NoDup order /\
       forall i, In i order <-> exists m, nth_error (a_mags a) i = Some m /\ nleb (thr a) m = true).
    { intros order P. split.
      - apply (Permutation_NoDup (Permutation_sym P)). pose proof (where_from_sorted 0 (keep a)) as S. fold (where_idx (keep a)) in S. fold (f_idx a) in S.
        apply SS_lt_NoDup; exact S.
      - intros i. rewrite <- (proj1 (proj2 (picks_keep a)) i). split; intros H; [apply (Permutation_in _ P H)|apply (Permutation_in _ (Permutation_sym P) H)]. }
    unfold f_times. rewrite Hk. unfold times_fit in Ht. destruct (a_times a) as [ts|] eqn:Et; cbn [ogather].
    - assert (G : gather ts (f_idx a) = Ok (map (fun i => nth i ts nnan) (f_idx a))).
      { destruct (gather_ok ts (f_idx a)) as [l E]; [intros i Hi; rewrite Ht; apply f_idx_lt; exact Hi|]. rewrite E. f_equal.
        apply gather_nth. exact E. }
      rewrite G. cbn [rmap]. set (ft := map (fun i => nth i ts nnan) (f_idx a)).
      destruct (Hsrt ft) as [P S]. set (s := srt ft) in *.
      assert (Lf : length ft = length (f_idx a)) by apply map_length. rewrite Lf in P.
      destruct (gather_perm (f_idx a) s P) as (order & Go & Po).
      exists (Some ft), order. split; [reflexivity|]. destruct (Fi order Po) as [Nd Ii].
      assert (So : StronglySorted (not_later ts) order).
      { rewrite (gather_nth _ _ _ 0 Go). apply (StronglySorted_map_in (not_later ft)); [exact S|].
        intros i j Hi Hj H x y Ex Ey.
        apply (Permutation_in _ P) in Hi. apply in_seq in Hi. apply (Permutation_in _ P) in Hj. apply in_seq in Hj.
        apply (H x y); unfold ft; rewrite nth_error_map.
        + rewrite (nth_error_nth' (f_idx a) 0) by lia. cbn [option_map]. f_equal. apply nth_error_nth. exact Ex.
        + rewrite (nth_error_nth' (f_idx a) 0) by lia. cbn [option_map]. f_equal. apply nth_error_nth. exact Ey. }
      split; [split; [exact Nd|split; [exact Ii|exact So]]|]. split; [exact Po|]. split; [apply Fn; exact Po|]. split.
      + intros E. assert (order = []) by (apply (Fn order Po); exact E). subst order.
        assert (I0 : f_idx a = []) by (apply Permutation_nil in Po; exact Po).
        split; [unfold ft; rewrite I0; reflexivity|rewrite Fw, I0; reflexivity].
      + unfold ordered. fold s. rewrite Fm, Fw, gather_map, Go. cbn [rmap rbind].
        assert (Gw : ogather (along (a_weights a) (f_idx a)) s = Ok (along (a_weights a) order)).
        { unfold along, ogather. destruct (a_weights a) as [ws|]; [|reflexivity]. cbn [option_map]. rewrite gather_map, Go. reflexivity. }
        rewrite Gw. cbn [rbind]. unfold ft at 1. rewrite gather_map, Go. cbn [rmap rbind along option_map]. reflexivity.
    - exists None, (f_idx a). split; [reflexivity|]. destruct (Fi (f_idx a) (Permutation_refl _)) as [Nd Ii].
      split; [split; [exact Nd|split; [exact Ii|apply where_from_sorted]]|].
      split; [apply Permutation_refl|]. split; [apply Fn; apply Permutation_refl|]. split; [intros _; split; [reflexivity|exact Fw]|].
      unfold ordered. rewrite Fm, Fw. reflexivity.
  Qed.

  (** ** b-positive *)
  Definition lim (a : @args T) : T := nsub (the_dmc a) (ndiv (dec_val (a_delta a)) two).
  Definition far (a : @args T) (i j : nat) : bool := nleb (lim a) (nsub (mag a j) (mag a i)).
  Definition binned (a : @args T) (x : T) : T := if nltb zero (dec_val (a_delta a)) then bin_elem (a_delta a) x else x.
  Definition pos_pairs (a : @args T) (order : list nat) : list (nat * nat) :=
    filter (fun p => far a (fst p) (snd p)) (consecutive order).
  Definition pair_diff (a : @args T) (p : nat * nat) : T := nsub (mag a (snd p)) (mag a (fst p)).

  Lemma np_diff_pairs (g : nat -> T) order : np_diff (map g order) = map (fun p => nsub (g (snd p)) (g (fst p))) (consecutive order).
  Proof.
    destruct order as [|x order]; [reflexivity|]. unfold np_diff, consecutive. cbn [map tl].
    revert x. induction order as [|y order IH]; intros x; [reflexivity|]. cbn [map map2 combine fst snd]. f_equal. apply IH.
  Qed.

  Lemma run_pos_order a order ts : ordered srt (f_mags a) (f_weights a) (f_idx a) ts
      = Ok (map (mag a) order, along (a_weights a) order, order, along (a_times a) order) ->
    (nltb zero (dec_val (a_delta a)) = true -> nltb (dec_val (a_delta a)) EPSILON = false) ->
    run_pos srt a (f_mags a) (f_weights a) (f_idx a) ts
    = let ps := pos_pairs a order in
      let? b := mle_estimator (map (fun p => binned a (pair_diff a p)) ps) (the_dmc a) (a_delta a) (along (a_weights a) (map snd ps)) in
      Ok (mkout (map (fun p => binned a (pair_diff a p)) ps) (along (a_weights a) (map snd ps)) (map snd ps)
            (along (a_times a) (map snd ps)) (f_mags a) (f_weights a) b).
  Proof.
    intros E He. unfold run_pos. rewrite E. cbn [rbind]. rewrite np_diff_pairs.
    set (P := consecutive order). set (lg := map _ (map _ P)).
    assert (El : lg = map (fun p => far a (fst p) (snd p)) P) by (unfold lg; rewrite map_map; reflexivity).
    assert (Ed : (if nltb zero (dec_val (a_delta a)) then bin_to_precision (Some (map (fun p => nsub (mag a (snd p)) (mag a (fst p))) P)) (a_delta a)
                  else Ok (map (fun p => nsub (mag a (snd p)) (mag a (fst p))) P)) = Ok (map (fun p => binned a (pair_diff a p)) P)).
    { unfold binned, bin_to_precision. destruct (nltb zero (dec_val (a_delta a))) eqn:Z; [rewrite He by reflexivity; rewrite map_map|]; reflexivity. }
    rewrite Ed. cbn [rbind]. cbv zeta. unfold pos_pairs. fold P.
    assert (C : forall B (g : nat * nat -> B), compress lg (map g P) = map g (filter (fun p => far a (fst p) (snd p)) P)).
    { intros B g. rewrite El, compress_map, compress_filter. reflexivity. }
    rewrite C.
    assert (Co : forall x, option_map (fun w => compress lg (tl w)) (along x order) = along x (map snd (filter (fun p => far a (fst p) (snd p)) P))).
    { intros x. unfold along. destruct x as [l|]; [|reflexivity]. cbn [option_map]. rewrite tl_map_pairs. fold P.
      rewrite (C _ (fun p => nth (snd p) l nnan)), map_map. reflexivity. }
    rewrite !Co.
    assert (Ci : compress lg (tl order) = map snd (filter (fun p => far a (fst p) (snd p)) P)).
    { rewrite <- (map_id order) at 1. rewrite tl_map_pairs. fold P. apply (C _ snd). }
    rewrite Ci. reflexivity.
  Qed.

  (** ** b-more-positive *)
  Lemma first_larger_find th m (g : nat -> T) post jj :
    match find (fun j => nleb th (nsub (g j) m)) post with
    | Some j => exists q, first_larger th m jj (map g post) = jj + q /\ nth_error post q = Some j
    | None => first_larger th m jj (map g post) = 0
    end.
  Proof.
    revert jj. induction post as [|x post IH]; intros jj; [reflexivity|]. cbn [find map first_larger].
    destruct (nleb th (nsub (g x) m)); [exists 0; split; [lia|reflexivity]|].
    specialize (IH (S jj)). destruct (find _ post) as [j|]; [|exact IH].
    destruct IH as (q & E & H). exists (S q). split; [rewrite E; lia|exact H].
  Qed.

  Lemma next_larger_pairs a (bin : T -> T) order pre suf : order = pre ++ suf -> order <> [] ->
    let nxt := find_next_larger_from (lim a) (length pre) (map (mag a) suf) in
    let hn := map (fun j => negb (j =? 0)) nxt in
    let ps := next_pairs (far a) suf in
    exists larger, gather (map (mag a) order) nxt = Ok larger /\
      compress hn (map bin (map2 nsub larger (map (mag a) suf))) = map (fun p => bin (pair_diff a p)) ps /\
      (forall B (g : nat -> B), gather (map g order) (compress hn nxt) = Ok (map (fun p => g (snd p)) ps)).
  Proof.
    revert pre. induction suf as [|i suf IH]; intros pre E Hne; cbn zeta.
    - exists []. repeat split; reflexivity.
    - destruct (IH (pre ++ [i])) as (larger & G & C & D); [rewrite E, <- app_assoc; reflexivity|exact Hne|].
      rewrite app_length in G, C, D. cbn [length] in G, C, D. rewrite Nat.add_1_r in G, C, D.
      cbn [map find_next_larger_from next_pairs].
      pose proof (first_larger_find (lim a) (mag a i) (mag a) suf (S (length pre))) as F.
      change (fun j => nleb (lim a) (nsub (mag a j) (mag a i))) with (far a i) in F.
      destruct (find (far a i) suf) as [j|] eqn:Ef.
      + destruct F as (q & Fq & Nq). rewrite Fq.
        assert (No : nth_error order (S (length pre) + q) = Some j).
        { rewrite E. rewrite nth_error_app2 by lia. replace (S (length pre) + q - length pre) with (S q) by lia. exact Nq. }
        assert (Nz : ((S (length pre) + q =? 0) = false)) by (apply Nat.eqb_neq; lia). rewrite Nz.
        cbn [negb compress gather]. rewrite nth_error_map, No. cbn [option_map]. rewrite G. cbn [rbind].
        exists (mag a j :: larger). split; [reflexivity|]. cbn [map2 map compress]. split; [rewrite C; reflexivity|].
        intros B g. rewrite nth_error_map, No. cbn [option_map]. rewrite D. reflexivity.
      + rewrite F. cbn [Nat.eqb negb compress gather].
        destruct order as [|o0 order']; [congruence|]. cbn [map nth_error] in *. rewrite G. cbn [rbind].
        exists (mag a o0 :: larger). split; [reflexivity|]. cbn [map2 map compress]. split; [exact C|exact D].
  Qed.


  Lemma run_more_order a order ts : ordered srt (f_mags a) (f_weights a) (f_idx a) ts
      = Ok (map (mag a) order, along (a_weights a) order, order, along (a_times a) order) -> order <> [] ->
    nltb (dec_val (a_delta a)) EPSILON = false ->
    run_more srt a (f_mags a) (f_weights a) (f_idx a) ts
    = let ps := next_pairs (far a) order in
      let? b := mle_estimator (map (fun p => bin_elem (a_delta a) (pair_diff a p)) ps) (the_dmc a) (a_delta a) (along (a_weights a) (map snd ps)) in
      Ok (mkout (map (fun p => bin_elem (a_delta a) (pair_diff a p)) ps) (along (a_weights a) (map snd ps)) (map snd ps)
            (along (a_times a) (map snd ps)) (map (mag a) order) (along (a_weights a) order) b).
  Proof.
    intros E Hne He. unfold run_more. rewrite E. cbn [rbind]. unfold find_next_larger. fold (lim a).
    destruct (next_larger_pairs a (bin_elem (a_delta a)) order [] order eq_refl Hne) as (larger & G & C & D). cbn [length] in G, C, D.
    rewrite G. cbn [rbind]. unfold bin_to_precision. rewrite He. cbn [rbind]. rewrite C.
    assert (Di := D _ (fun i : nat => i)). rewrite map_id in Di. rewrite Di. cbn [rbind].
    assert (Do : forall x, ogather (along x order) (compress (map (fun j : nat => negb (j =? 0)) (find_next_larger_from (lim a) 0 (map (mag a) order)))
                   (find_next_larger_from (lim a) 0 (map (mag a) order))) = Ok (along x (map snd (next_pairs (far a) order)))).
    { intros x. unfold along, ogather. destruct x as [l|]; [|reflexivity]. cbn [option_map].
      rewrite (D _ (fun i => nth i l nnan)). cbn [rmap]. rewrite map_map. reflexivity. }
    rewrite !Do. cbn [rbind]. reflexivity.
  Qed.

  Lemma run_more_small a order ts : ordered srt (f_mags a) (f_weights a) (f_idx a) ts
      = Ok (map (mag a) order, along (a_weights a) order, order, along (a_times a) order) -> order <> [] ->
    nltb (dec_val (a_delta a)) EPSILON = true ->
    run_more srt a (f_mags a) (f_weights a) (f_idx a) ts = Err ValueError.
  Proof.
    intros E Hne He. unfold run_more. rewrite E. cbn [rbind]. unfold find_next_larger. fold (lim a).
    destruct (next_larger_pairs a (bin_elem (a_delta a)) order [] order eq_refl Hne) as (larger & G & C & D). cbn [length] in G.
    rewrite G. cbn [rbind]. unfold bin_to_precision. rewrite He. reflexivity.
  Qed.
End Any.
