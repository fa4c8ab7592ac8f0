(** * What a call of the a-value estimators does (proof device) *)
From Coq Require Import ZArith List Bool String Lia Permutation Sorted.
From Verif Require Import Base Num StateM SortLib RList Binning_model BValue_model BValue_run BValue_proofs Spec_BValue
  Spec_Positive Positive_proofs AValue_model.
Import ListNotations.

Ltac step := erewrite sbind_ok by reflexivity; cbn [fst snd].

Section A.
  Context {T : Type} {N : Num T}.
  Local Open Scope num_scope.
  Variable srt : list T -> list nat.

  (** the same data as arguments of the b-value estimators: filtering and ordering are shared *)
  Definition to_b (a : @aargs T) : @args T :=
    mkargs (aa_mags a) (aa_mc a) (aa_delta a) None (Some (aa_times a)) (aa_dmc a).
  Definition apos (k : akind) : bool := match k with AClassic => false | _ => true end.
  Definition tm (a : @aargs T) (i : nat) : T := nth i (aa_times a) nnan.

  Lemma a_sanity_run w a o ws : ao_mags o = Some (aa_mags a) ->
    exists ws', a_sanity_checks w a (o, ws) = ((o, ws'), check (to_b a)).
  Proof.
    intros H. unfold a_sanity_checks, check, self, sbind, omags. cbn [fst]. rewrite H. cbn [to_b a_mags a_weights a_delta].
    destruct (aa_mags a) as [|x t]; [exists ws; reflexivity|]. unfold slift.
    destruct (binning_test (x :: t) (aa_delta a) (lit 1 15) false) as [[]|e]; cbn [rbind].
    - destruct (nltb _ _); [|exists ws; reflexivity]. unfold awarn. destruct w; eexists; reflexivity.
    - exists ws. reflexivity.
    - exists ws. reflexivity.
  Qed.

  Definition start (a : @aargs T) (o : @aobj T) : aobj :=
    mkaobj (Some (aa_mags a)) (Some (aa_mc a)) (Some (aa_delta a)) (aa_scaling a) (aa_mref a) (aa_b a)
           (ao_idx o) (ao_a o) (ao_times o) (ao_dmc o).

  Lemma a_filter_classic w a o ws : ao_mags o = Some (aa_mags a) ->
    exists ws', a_filter_magnitudes AClassic w a (o, ws) = ((put_mags (f_mags (to_b a)) (put_idx (f_idx (to_b a)) o), ws'), Ok tt).
  Proof.
    intros H. unfold a_filter_magnitudes. rewrite (sbind_ok _ _ (o, ws) (o, ws) o eq_refl). unfold omags. rewrite H. cbv zeta.
    change (map _ (aa_mags a)) with (keep (to_b a)). change (where_idx (keep (to_b a))) with (f_idx (to_b a)).
    step.
    assert (G : gather (aa_mags a) (f_idx (to_b a)) = Ok (f_mags (to_b a))) by (apply gather_where; apply keep_length).
    erewrite sbind_ok by (unfold slift; rewrite G; reflexivity).
    step.
    destruct (f_mags (to_b a)); [|exists ws; reflexivity]. unfold awarn. destruct w; eexists; reflexivity.
  Qed.
  Lemma a_filter_pos k w a o ws ts : apos k = true -> ao_mags o = Some (aa_mags a) -> ao_times o = Some (aa_times a) ->
    gather (aa_times a) (f_idx (to_b a)) = Ok ts ->
    exists ws', a_filter_magnitudes k w a (o, ws)
      = ((put_times ts (put_mags (f_mags (to_b a)) (put_idx (f_idx (to_b a)) o)), ws'), Ok tt).
  Proof.
    intros Hk H Ht Gt. unfold a_filter_magnitudes. rewrite (sbind_ok _ _ (o, ws) (o, ws) o eq_refl). unfold omags, otimes. rewrite H, Ht. cbv zeta.
    change (map _ (aa_mags a)) with (keep (to_b a)). change (where_idx (keep (to_b a))) with (f_idx (to_b a)).
    step.
    assert (G : gather (aa_mags a) (f_idx (to_b a)) = Ok (f_mags (to_b a))) by (apply gather_where; apply keep_length).
    erewrite sbind_ok by (unfold slift; rewrite G; reflexivity).
    set (o1 := put_mags (f_mags (to_b a)) (put_idx (f_idx (to_b a)) o)).
    step.
    assert (X : exists ws', (match f_mags (to_b a) with [] => awarn w "no magnitudes" | _ => sret tt end) (o1, ws) = ((o1, ws'), Ok tt)).
    { destruct (f_mags (to_b a)); [|exists ws; reflexivity]. unfold awarn. destruct w; eexists; reflexivity. }
    destruct X as (ws' & X). rewrite (sbind_ok _ _ _ _ _ X). exists ws'.
    destruct k; [discriminate| |]; rewrite Gt; reflexivity.
  Qed.

  (** the classic estimator *)
  Definition done (a : @aargs T) (k : akind) (o : @aobj T) (ms : list T) (ix : list nat) (ts : list T) (v : T) : aobj :=
    mkaobj (Some ms) (Some (aa_mc a)) (Some (aa_delta a)) (aa_scaling a) (aa_mref a) (aa_b a) (Some ix) (Some v)
           (if apos k then Some ts else ao_times o) (if apos k then Some (the_dmc (to_b a)) else ao_dmc o).

  Lemma a_classic_run w a o ws :
    match check (to_b a) with
    | Err e => exists s', a_calculate srt AClassic w a (o, ws) = (s', Err e) /\ ao_a (fst s') = ao_a o
    | Ok _ => exists ws', a_calculate srt AClassic w a (o, ws) =
        let ms := f_mags (to_b a) in let ix := f_idx (to_b a) in
        match ms with
        | [] => ((done a AClassic o ms ix [] nnan, ws'), Ok nnan)
        | _ => let v := nlog10 (ofnat (List.length ms)) in
               match a_reference_scaling a v with
               | Ok v' => ((done a AClassic o ms ix [] v', ws'), Ok v')
               | Err e => ((done a AClassic o ms ix [] v, ws'), Err e)
               end
        end
    end.
  Proof.
    unfold a_calculate, a_base_calculate.
    rewrite (sbind_ok _ _ (o, ws) (start a o, ws) tt eq_refl).
    destruct (a_sanity_run w a (start a o) ws eq_refl) as (ws1 & S1).
    destruct (check (to_b a)) as [[]|e].
    2:{ rewrite (sbind_err _ _ _ _ _ S1). eexists. split; reflexivity. }
    rewrite (sbind_ok _ _ _ _ _ S1).
    destruct (a_filter_classic w a (start a o) ws1 eq_refl) as (ws2 & S2). rewrite (sbind_ok _ _ _ _ _ S2).
    set (o2 := put_mags _ _). rewrite (sbind_ok _ _ (o2, ws2) (o2, ws2) o2 eq_refl).
    change (omags o2) with (f_mags (to_b a)). cbv zeta.
    destruct (f_mags (to_b a)) as [|m ms] eqn:Em.
    - exists ws2. unfold done, o2, start. rewrite Em || idtac. reflexivity.
    - exists ws2. cbn [a_estimate].
      assert (E : (sbind self (fun o0 => sret (nlog10 (ofnat (List.length (omags o0)))))) (o2, ws2) = ((o2, ws2), Ok (nlog10 (ofnat (List.length (m :: ms)))))).
      { reflexivity. }
      rewrite (sbind_ok _ _ _ _ _ E).
      step.
      destruct (a_reference_scaling a (nlog10 (ofnat (List.length (m :: ms))))) as [v'|e]; reflexivity.
  Qed.

  (** the estimators that use times *)
  Hypothesis Hsrt : argsort_ok srt.

  Definition a_times_fit (a : @aargs T) : Prop := List.length (aa_times a) = List.length (aa_mags a).

  Lemma a_ordered a : a_times_fit a -> check (to_b a) = Ok tt ->
    exists ts order, gather (aa_times a) (f_idx (to_b a)) = Ok ts /\
      time_order (aa_mags a) (aa_mc a - dec_val (aa_delta a) / two) (Some (aa_times a)) order /\
      Permutation order (f_idx (to_b a)) /\ (order = [] <-> f_mags (to_b a) = []) /\
      (order = [] -> ts = [] /\ f_idx (to_b a) = []) /\
      gather (f_mags (to_b a)) (srt ts) = Ok (map (mag (to_b a)) order) /\
      gather ts (srt ts) = Ok (map (tm a) order) /\
      gather (f_idx (to_b a)) (srt ts) = Ok order.
  Proof.
    intros Ht Hc. destruct (ordered_spec srt Hsrt BPositive (to_b a) eq_refl Hc Ht) as (ots & order & Ft & To & Po & Ne & Em & Eo).
    unfold f_times in Ft. cbn [is_pos to_b a_times ogather] in Ft.
    destruct (gather (aa_times a) (f_idx (to_b a))) as [ts|e] eqn:G; [|discriminate]. cbn [rmap] in Ft. injection Ft as <-.
    exists ts, order. split; [reflexivity|]. split; [exact To|]. split; [exact Po|]. split; [exact Ne|]. split.
    { intros E. apply Ne in E. destruct (Em E) as [E1 _]. assert (order = []) by (apply Ne; exact E). subst order.
      apply Permutation_nil in Po. cbn [along to_b a_times option_map map] in E1. split; [congruence|exact Po]. }
    unfold ordered in Eo. destruct (gather (f_mags (to_b a)) (srt ts)) as [g1|]; [|discriminate]. cbn [rbind] in Eo.
    cbn [f_weights to_b a_weights option_map ogather rbind along a_times] in Eo.
    destruct (gather ts (srt ts)) as [g2|]; [|discriminate]. cbn [rbind] in Eo.
    change (f_idx (mkargs _ _ _ _ _ _)) with (f_idx (to_b a)) in Eo.
    destruct (gather (f_idx (to_b a)) (srt ts)) as [g3|]; [|discriminate]. cbn [rbind] in Eo.
    injection Eo as E1 E2 E3. subst. repeat split.
  Qed.

  Definition a_dmc_ok (a : @aargs T) : Prop := nltb (the_dmc (to_b a)) zero = false.
  Definition b_ok (k : akind) (a : @aargs T) : Prop := match k with AMorePositive => falsy (aa_b a) = false | _ => True end.

  Lemma np_diff_tm a order : np_diff (map (tm a) order) = map (fun p => tm a (snd p) - tm a (fst p)) (consecutive order).
  Proof. exact (np_diff_pairs (tm a) order). Qed.

  (** a-positive *)
  Definition total (a : @aargs T) (order : list nat) : T := last_of (map (tm a) order) - first_of (map (tm a) order).
  Definition pos_value (a : @aargs T) (order : list nat) : T :=
    match pos_pairs (to_b a) order with
    | [] => nnan
    | ps => nlog10 (ofnat (List.length ps) / nsum (map (fun p => (tm a (snd p) - tm a (fst p)) / total a order) ps))
    end.
  Definition pos_times (a : @aargs T) (order : list nat) : list T :=
    match pos_pairs (to_b a) order with
    | [] => map (tm a) order
    | ps => map (fun p => tm a (snd p)) ps
    end.
  Definition result (a : @aargs T) (k : akind) o ms ix ts v ws : astate * res T :=
    match a_reference_scaling a v with
    | Ok v' => ((done a k o ms ix ts v', ws), Ok v')
    | Err e => ((done a k o ms ix ts v, ws), Err e)
    end.

  Lemma compress_pairs {B} a order (g : nat * nat -> B) :
    compress (map (fun x => x >=? (the_dmc (to_b a) - dec_val (aa_delta a) / two)) (np_diff (map (mag (to_b a)) order))) (map g (consecutive order))
    = map g (pos_pairs (to_b a) order).
  Proof.
    rewrite np_diff_pairs, map_map, compress_map, compress_filter. reflexivity.
  Qed.
  Lemma count_map_true {A} (f : A -> bool) l : count (fun b => b) (map f l) = List.length (filter f l).
  Proof. unfold count. rewrite filter_map_swap, map_length. reflexivity. Qed.

  Lemma a_positive_estimate w a o ws ts order :
    ao_mags o = Some (f_mags (to_b a)) -> ao_idx o = Some (f_idx (to_b a)) -> ao_times o = Some ts -> ao_dmc o = Some (the_dmc (to_b a)) ->
    gather (f_mags (to_b a)) (srt ts) = Ok (map (mag (to_b a)) order) ->
    gather ts (srt ts) = Ok (map (tm a) order) ->
    gather (f_idx (to_b a)) (srt ts) = Ok order ->
    exists ws', a_estimate_positive srt w a (o, ws) =
      ((put_times (pos_times a order) (put_idx (map snd (pos_pairs (to_b a) order))
          (put_mags (map (fun p => mag (to_b a) (snd p)) (pos_pairs (to_b a) order)) o)), ws'), Ok (pos_value a order)).
  Proof.
    intros F1 F2 F3 F4 G1 G2 G3. unfold a_estimate_positive.
    assert (E : a_order_by_time srt (o, ws) = ((put_idx order (put_times (map (tm a) order) (put_mags (map (mag (to_b a)) order) o)), ws), Ok tt)).
    { unfold a_order_by_time. rewrite (sbind_ok _ _ (o, ws) (o, ws) o eq_refl). unfold omags, otimes, oidx. rewrite F1, F2, F3. cbv zeta.
      erewrite sbind_ok by (unfold slift; rewrite G1; reflexivity). step.
      erewrite sbind_ok by (unfold slift; rewrite G2; reflexivity). step.
      erewrite sbind_ok by (unfold slift; rewrite G3; reflexivity). reflexivity. }
    rewrite (sbind_ok _ _ _ _ _ E). set (o1 := put_idx _ _).
    rewrite (sbind_ok _ _ (o1, ws) (o1, ws) o1 eq_refl).
    assert (D : odmc o1 = the_dmc (to_b a)) by (unfold odmc, o1; cbn; rewrite F4; reflexivity). rewrite D.
    change (omags o1) with (map (mag (to_b a)) order). change (otimes o1) with (map (tm a) order). change (oidx o1) with order.
    cbv zeta. rewrite np_diff_tm.
    rewrite (compress_pairs a order (fun p => tm a (snd p) - tm a (fst p))).
    rewrite (tl_map_pairs (mag (to_b a)) order), (tl_map_pairs (tm a) order).
    rewrite (compress_pairs a order (fun p => mag (to_b a) (snd p))), (compress_pairs a order (fun p => tm a (snd p))).
    assert (Ti : tl order = map snd (consecutive order)) by (symmetry; apply combine_tl_snd).
    rewrite Ti, (compress_pairs a order snd).
    step. step.
    assert (C : count (fun b : bool => b) (map (fun x => x >=? (the_dmc (to_b a) - dec_val (aa_delta a) / two)) (np_diff (map (mag (to_b a)) order)))
      = List.length (pos_pairs (to_b a) order)).
    { rewrite np_diff_pairs, map_map, count_map_true. reflexivity. }
    rewrite C. unfold pos_times, pos_value.
    destruct (pos_pairs (to_b a) order) as [|p ps].
    - cbn [map]. unfold awarn. destruct w; eexists; reflexivity.
    - cbn [map]. exists ws. step. unfold sret, total. rewrite map_map. reflexivity.
  Qed.

  Lemma prefix_run k w a o ws : apos k = true ->
    (b_ok k a -> a_dmc_ok a -> exists ws', a_calculate srt k w a (o, ws) = a_base_calculate srt k w a (put_dmc (the_dmc (to_b a)) (put_times (aa_times a) o), ws')) /\
    (~ b_ok k a -> a_calculate srt k w a (o, ws) = ((o, ws), Err ValueError)) /\
    (b_ok k a -> ~ a_dmc_ok a -> a_calculate srt k w a (o, ws) = ((put_dmc (the_dmc (to_b a)) (put_times (aa_times a) o), ws), Err ValueError)).
  Proof.
    intros Hk. unfold a_calculate, b_ok, a_dmc_ok.
    assert (K : forall f, (match k with AClassic => a_base_calculate srt k w a | _ => f end) = f) by (destruct k; [discriminate|reflexivity|reflexivity]).
    rewrite K. clear K. fold (the_dmc (to_b a)).
    change (match aa_dmc a with Some d => d | None => dec_val (aa_delta a) end) with (the_dmc (to_b a)). cbv zeta.
    destruct (match k with AMorePositive => falsy (aa_b a) | _ => false end) eqn:Ef.
    - destruct k; try discriminate. rewrite Ef. repeat split; try congruence; try (intros; reflexivity).
    - assert (P : (match k with AMorePositive => if falsy (aa_b a) then sraise ValueError else sret tt | _ => sret tt end) (o, ws) = ((o, ws), Ok tt)).
      { destruct k; try reflexivity. rewrite Ef. reflexivity. }
      rewrite (sbind_ok _ _ _ _ _ P). step. step. cbn [fst snd].
      destruct (the_dmc (to_b a) <? zero) eqn:Ed.
      + repeat split; try congruence; try (intros; reflexivity). intros NB. exfalso. apply NB. destruct k; auto.
      + step. repeat split; try congruence.
        * intros _ _. change (aa_delta a) with (a_delta (to_b a)).
          destruct (the_dmc (to_b a) <? dec_val (a_delta (to_b a))).
          { unfold awarn. destruct w; eexists; (step); reflexivity. }
          { exists ws. step. reflexivity. }
        * intros NB. exfalso. apply NB. destruct k; auto.
  Qed.

  Lemma a_positive_run a : a_times_fit a -> a_dmc_ok a -> check (to_b a) = Ok tt ->
    exists order, time_order (aa_mags a) (aa_mc a - dec_val (aa_delta a) / two) (Some (aa_times a)) order /\
      Permutation order (f_idx (to_b a)) /\ forall w o ws, exists ws',
      a_calculate srt APositive w a (o, ws) =
        match order with
        | [] => ((done a APositive o [] [] [] nnan, ws'), Ok nnan)
        | _ => result a APositive o (map (fun p => mag (to_b a) (snd p)) (pos_pairs (to_b a) order))
                 (map snd (pos_pairs (to_b a) order)) (pos_times a order) (pos_value a order) ws'
        end.
  Proof.
    intros Ht Hd Hc. destruct (a_ordered a Ht Hc) as (ts & order & Gt & To & Po & Ne & Em & G1 & G2 & G3).
    exists order. split; [exact To|]. split; [exact Po|]. intros w o ws.
    destruct (prefix_run APositive w a o ws eq_refl) as (P & _ & _). destruct (P I Hd) as (ws0 & ->). clear P.
    set (o0 := put_dmc _ _). unfold a_base_calculate.
    rewrite (sbind_ok _ _ (o0, ws0) (start a o0, ws0) tt eq_refl).
    destruct (a_sanity_run w a (start a o0) ws0 eq_refl) as (ws1 & S1). rewrite Hc in S1. rewrite (sbind_ok _ _ _ _ _ S1).
    destruct (a_filter_pos APositive w a (start a o0) ws1 ts eq_refl eq_refl eq_refl Gt) as (ws2 & S2). rewrite (sbind_ok _ _ _ _ _ S2).
    set (o2 := put_times _ _). rewrite (sbind_ok _ _ (o2, ws2) (o2, ws2) o2 eq_refl).
    change (omags o2) with (f_mags (to_b a)).
    destruct (a_positive_estimate w a o2 ws2 ts order eq_refl eq_refl eq_refl eq_refl G1 G2 G3) as (ws3 & E).
    destruct order as [|i0 order'].
    - exists ws2. destruct (Em eq_refl) as [E1 E2]. pose proof (proj1 Ne eq_refl) as E3.
      unfold o2. rewrite E1, E2, E3. reflexivity.
    - exists ws3.
      destruct (f_mags (to_b a)) as [|m ms] eqn:Ef; [discriminate (proj2 Ne eq_refl)|].
      cbn [a_estimate]. rewrite (sbind_ok _ _ _ _ _ E). step. unfold result, slift, sbind.
      destruct (a_reference_scaling a (pos_value a (i0 :: order'))); reflexivity.
  Qed.

  (** a-more-positive *)
  Definition wait (a : @aargs T) (order : list nat) (q : nat * option nat) : T :=
    match snd q with Some j => tm a j - tm a (fst q) | None => last_of (map (tm a) order) - tm a (fst q) end.
  Definition tau (a : @aargs T) (b : T) (order : list nat) (q : nat * option nat) : T :=
    wait a order q * npow10 (nopp b * (mag (to_b a) (fst q) + the_dmc (to_b a) - aa_mc a)).
  Definition more_value (a : @aargs T) (b : T) (order : list nat) : T :=
    match next_pairs (far (to_b a)) order with
    | [] => nnan
    | ps => nlog10 (ofnat (List.length ps) /
              nsum (map (fun q => tau a b order q / total a order) (with_next (far (to_b a)) order)))
    end.

  Lemma with_next_waits a order pre suf : order = pre ++ suf -> order <> [] ->
    let nxt := find_next_larger_from (lim (to_b a)) (List.length pre) (map (mag (to_b a)) suf) in
    exists tn, gather (map (tm a) order) nxt = Ok tn /\
      map2 (fun (nn : bool) (p : T * T) => if nn then last_of (map (tm a) order) - snd p else fst p)
        (map (fun j => (j =? 0)%nat) nxt) (zip (map2 nsub tn (map (tm a) suf)) (map (tm a) suf))
      = map (wait a order) (with_next (far (to_b a)) suf).
  Proof.
    revert pre. induction suf as [|i suf IH]; intros pre E Hne; cbn zeta.
    - exists []. repeat split; reflexivity.
    - destruct (IH (pre ++ [i])) as (tn & G & C); [rewrite E, <- app_assoc; reflexivity|exact Hne|].
      rewrite app_length in G, C. cbn [List.length] in G, C. rewrite Nat.add_1_r in G, C.
      cbn [map find_next_larger_from with_next].
      pose proof (first_larger_find (lim (to_b a)) (mag (to_b a) i) (mag (to_b a)) suf (S (List.length pre))) as F.
      change (fun j => nleb (lim (to_b a)) (nsub (mag (to_b a) j) (mag (to_b a) i))) with (far (to_b a) i) in F.
      destruct (find (far (to_b a) i) suf) as [j|] eqn:Ef.
      + destruct F as (q & Fq & Nq). rewrite Fq.
        assert (No : nth_error order (S (List.length pre) + q) = Some j).
        { rewrite E. rewrite nth_error_app2 by lia. replace (S (List.length pre) + q - List.length pre)%nat with (S q) by lia. exact Nq. }
        assert (Nz : ((S (List.length pre) + q =? 0)%nat = false)) by (apply Nat.eqb_neq; lia). rewrite Nz.
        cbn [gather]. rewrite nth_error_map, No. cbn [option_map]. rewrite G. cbn [rbind].
        exists (tm a j :: tn). split; [reflexivity|]. cbn [map2 map zip]. rewrite C. reflexivity.
      + rewrite F. cbn [Nat.eqb gather].
        destruct order as [|o0 order']; [congruence|]. cbn [map nth_error] in *. rewrite G. cbn [rbind].
        exists (tm a o0 :: tn). split; [reflexivity|]. cbn [map2 map zip]. rewrite C. reflexivity.
  Qed.

  Lemma count_split (l : list bool) : (count (fun b => b) l + count negb l = List.length l)%nat.
  Proof. unfold count. induction l as [|[] l IH]; cbn; lia. Qed.
  Lemma with_next_fst {A} (fr : A -> A -> bool) l : map fst (with_next fr l) = l.
  Proof. induction l as [|x l IH]; cbn; [reflexivity|]. rewrite IH. reflexivity. Qed.
  Lemma map2_map2 {A B C D} (f : C -> B -> D) (g : A -> C) (h : A -> B) l : map2 f (map g l) (map h l) = map (fun x => f (g x) (h x)) l.
  Proof. apply map2_map. Qed.

  Lemma a_more_estimate w a b o ws ts order : order <> [] ->
    ao_mags o = Some (f_mags (to_b a)) -> ao_idx o = Some (f_idx (to_b a)) -> ao_times o = Some ts -> ao_dmc o = Some (the_dmc (to_b a)) ->
    gather (f_mags (to_b a)) (srt ts) = Ok (map (mag (to_b a)) order) ->
    gather ts (srt ts) = Ok (map (tm a) order) ->
    gather (f_idx (to_b a)) (srt ts) = Ok order ->
    let ps := next_pairs (far (to_b a)) order in
    exists ws', a_estimate_more_positive srt w a b (o, ws) =
      ((put_idx (map snd ps) (put_times (map (fun p => tm a (snd p)) ps) (put_mags (map (fun p => mag (to_b a) (snd p)) ps) o)), ws'),
       Ok (more_value a b order)).
  Proof.
    intros Hne F1 F2 F3 F4 G1 G2 G3 ps. unfold a_estimate_more_positive.
    assert (E : a_order_by_time srt (o, ws) = ((put_idx order (put_times (map (tm a) order) (put_mags (map (mag (to_b a)) order) o)), ws), Ok tt)).
    { unfold a_order_by_time. rewrite (sbind_ok _ _ (o, ws) (o, ws) o eq_refl). unfold omags, otimes, oidx. rewrite F1, F2, F3. cbv zeta.
      erewrite sbind_ok by (unfold slift; rewrite G1; reflexivity). step.
      erewrite sbind_ok by (unfold slift; rewrite G2; reflexivity). step.
      erewrite sbind_ok by (unfold slift; rewrite G3; reflexivity). reflexivity. }
    rewrite (sbind_ok _ _ _ _ _ E). set (o1 := put_idx _ _).
    rewrite (sbind_ok _ _ (o1, ws) (o1, ws) o1 eq_refl).
    assert (D : odmc o1 = the_dmc (to_b a)) by (unfold odmc, o1; cbn; rewrite F4; reflexivity). rewrite D.
    change (omags o1) with (map (mag (to_b a)) order). change (otimes o1) with (map (tm a) order). change (oidx o1) with order.
    cbv zeta. unfold find_next_larger.
    change (the_dmc (to_b a) - dec_val (aa_delta a) / two) with (lim (to_b a)).
    destruct (next_larger_pairs (to_b a) (fun x => x) order [] order eq_refl Hne) as (larger & _ & _ & Dg).
    destruct (with_next_waits a order [] order eq_refl Hne) as (tn & Gn & Wn).
    cbn [List.length] in Dg, Gn, Wn. fold ps in Dg.
    set (nxt := find_next_larger_from (lim (to_b a)) 0 (map (mag (to_b a)) order)) in *.
    erewrite sbind_ok by (unfold slift; rewrite Gn; reflexivity).
    assert (Hn : map negb (map (fun j => (j =? 0)%nat) nxt) = map (fun j => negb (j =? 0)%nat) nxt) by apply map_map.
    assert (Lc : count negb (map (fun j => (j =? 0)%nat) nxt) = List.length ps).
    { pose proof (Dg _ (fun i => i)) as L. apply gather_length in L. rewrite map_length in L.
      rewrite L. rewrite compress_filter. unfold count. rewrite filter_map_swap, map_length. reflexivity. }
    pose proof (count_split (map (fun j => (j =? 0)%nat) nxt)) as Sp. rewrite map_length, Lc in Sp.
    unfold more_value. fold ps.
    destruct (Nat.eqb_spec (count (fun b0 : bool => b0) (map (fun j => (j =? 0)%nat) nxt)) (List.length nxt)) as [Ez|Ez].
    - assert (L0 : List.length ps = 0%nat) by lia. destruct ps as [|p ps']; [|discriminate]. cbn [map].
      unfold awarn. destruct w; eexists; reflexivity.
    - destruct ps as [|p0 ps0] eqn:Eps; [cbn [List.length] in Sp; lia|]. rewrite <- Eps in *.
      rewrite Wn, Lc, Hn. rewrite (Dg _ (mag (to_b a))), (Dg _ (tm a)).
      erewrite sbind_ok by reflexivity. step. erewrite sbind_ok by reflexivity. step.
      pose proof (Dg _ (fun i => i)) as Di. rewrite map_id in Di. rewrite Di.
      erewrite sbind_ok by reflexivity. step. exists ws. unfold sret.
      assert (Et : map2 (fun td m => td * npow10 (nopp b * (m + the_dmc (to_b a) - aa_mc a))) (map (wait a order) (with_next (far (to_b a)) order)) (map (mag (to_b a)) order)
        = map (tau a b order) (with_next (far (to_b a)) order)).
      { rewrite <- (with_next_fst (far (to_b a)) order) at 3. rewrite map_map, map2_map. reflexivity. }
      rewrite Et, map_map. reflexivity.
  Qed.

  Lemma a_more_run a b : a_times_fit a -> a_dmc_ok a -> aa_b a = Some b -> (b =? zero) = false -> check (to_b a) = Ok tt ->
    exists order, time_order (aa_mags a) (aa_mc a - dec_val (aa_delta a) / two) (Some (aa_times a)) order /\
      Permutation order (f_idx (to_b a)) /\ forall w o ws, exists ws',
      a_calculate srt AMorePositive w a (o, ws) =
        match order with
        | [] => ((done a AMorePositive o [] [] [] nnan, ws'), Ok nnan)
        | _ => let ps := next_pairs (far (to_b a)) order in
               result a AMorePositive o (map (fun p => mag (to_b a) (snd p)) ps) (map snd ps) (map (fun p => tm a (snd p)) ps) (more_value a b order) ws'
        end.
  Proof.
    intros Ht Hd Hb Hz Hc. destruct (a_ordered a Ht Hc) as (ts & order & Gt & To & Po & Ne & Em & G1 & G2 & G3).
    exists order. split; [exact To|]. split; [exact Po|]. intros w o ws.
    destruct (prefix_run AMorePositive w a o ws eq_refl) as (P & _ & _).
    destruct P as (ws0 & ->); [unfold b_ok, falsy; rewrite Hb; exact Hz|exact Hd|].
    set (o0 := put_dmc _ _). unfold a_base_calculate.
    rewrite (sbind_ok _ _ (o0, ws0) (start a o0, ws0) tt eq_refl).
    destruct (a_sanity_run w a (start a o0) ws0 eq_refl) as (ws1 & S1). rewrite Hc in S1. rewrite (sbind_ok _ _ _ _ _ S1).
    destruct (a_filter_pos AMorePositive w a (start a o0) ws1 ts eq_refl eq_refl eq_refl Gt) as (ws2 & S2). rewrite (sbind_ok _ _ _ _ _ S2).
    set (o2 := put_times _ _). rewrite (sbind_ok _ _ (o2, ws2) (o2, ws2) o2 eq_refl).
    change (omags o2) with (f_mags (to_b a)).
    destruct order as [|i0 order'].
    - exists ws2. destruct (Em eq_refl) as [E1 E2]. pose proof (proj1 Ne eq_refl) as E3.
      unfold o2. rewrite E1, E2, E3. reflexivity.
    - assert (Hne : i0 :: order' <> []) by discriminate.
      destruct (a_more_estimate w a b o2 ws2 ts (i0 :: order') Hne eq_refl eq_refl eq_refl eq_refl G1 G2 G3) as (ws3 & E).
      exists ws3.
      destruct (f_mags (to_b a)) as [|m ms] eqn:Ef; [discriminate (proj2 Ne eq_refl)|].
      cbn [a_estimate]. rewrite Hb. rewrite (sbind_ok _ _ _ _ _ E). step. unfold result, slift, sbind. cbv zeta.
      destruct (a_reference_scaling a (more_value a b (i0 :: order'))); reflexivity.
  Qed.

  (** failures before the estimation *)
  Lemma a_check_fails k w a o ws e : (apos k = true -> a_dmc_ok a /\ b_ok k a) -> check (to_b a) = Err e ->
    exists s', a_calculate srt k w a (o, ws) = (s', Err e) /\ ao_a (fst s') = ao_a o.
  Proof.
    intros Hp Hc. destruct (apos k) eqn:Ek.
    - destruct (Hp eq_refl) as [Hd Hb]. destruct (prefix_run k w a o ws Ek) as (P & _ & _). destruct (P Hb Hd) as (ws0 & ->).
      set (o0 := put_dmc _ _). unfold a_base_calculate. rewrite (sbind_ok _ _ (o0, ws0) (start a o0, ws0) tt eq_refl).
      destruct (a_sanity_run w a (start a o0) ws0 eq_refl) as (ws1 & S1). rewrite Hc in S1. rewrite (sbind_err _ _ _ _ _ S1).
      eexists. split; reflexivity.
    - destruct k; try discriminate. pose proof (a_classic_run w a o ws) as R. rewrite Hc in R. exact R.
  Qed.
End A.
