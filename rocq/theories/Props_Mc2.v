(** * C42, C43: the selection of estimate_mc_ks; the warnings option *)
From Coq Require Import ZArith List Bool Lia Reals Lra Permutation Sorted.
From Verif Require Import Base Num XR RList SortLib Binning_model Spec_Binning Binning_proofs BinTest_proofs Fmd_proofs Props_Binning BValue_model BValue_run BValue_proofs Props_BValue2 Simulate_model Spec_BValue Mc_model Spec_Mc Props_Mc.
Import ListNotations.

(** ** C42 *)
(** the test at one magnitude, written with the public functions: the sample at or above mc
    (half a bin lower), its b-value (given, or estimate_b), and ks_test_gr *)
Section Outcome.
  Context {T : Type} {N : Num T}.
  Definition sample_from (mags : list T) (delta : dec) (mc : T) : list T := filter (fun m => nleb (nsub mc (ndiv (dec_val delta) two)) m) mags.
  Definition b_from (srt : list T -> list nat) (k : kind) (kw : @bkwargs T) (w : bool) (mags : list T) (delta : dec) (mc : T) : res T :=
    match estimate_b srt k w (with_kw (sample_from mags delta mc) mc delta kw) PB false false [] with
    | Ok (OutB b) => Ok b | Ok _ => Err TypeError | Err e => Err e end.
  (** (mc, (p-value, distance, b)) *)
  Definition ks_outcome srt k kw (u e : nat -> nat -> nat -> T) w mags delta (b_value : option T) n (ks_list : option (list (list T))) (q : nat * T) : res (T * (T * T * T)) :=
    let? b := match b_value with Some b => Ok b | None => b_from srt k kw w mags delta (snd q) end in
    let? ks := match ks_list with None => Ok None | Some l => match nth_error l (fst q) with Some x => Ok (Some x) | None => Err IndexError end end in
    let? r := ks_test_gr (u (fst q)) (e (fst q)) w (sample_from mags delta (snd q)) (snd q) delta b n ks None in
    Ok (snd q, (fst (fst r), snd (fst r), b)).
  Definition passes (p_pass : T) (t : T * (T * T * T)) : bool := nleb p_pass (fst (fst (snd t))).
End Outcome.
Notation numbered l := (combine (seq 0 (length l)) l).

Section C42.
  Context {T : Type} {N : Num T} (srt : list T -> list nat) (k : kind) (kw : @bkwargs T) (u e : nat -> nat -> nat -> T) (w : bool) (mags : list T) (delta : dec)
    (bv : option T) (n : nat) (ksl : option (list (list T))) (pp : T).
  Lemma calc_b_any w1 w2 (a : @args T) o1 o2 :
    (let '(o', r) := calculate srt k w1 a o1 in let? _ := r in b_value o') = (let '(o', r) := calculate srt k w2 a o2 in let? _ := r in b_value o').
  Proof.
    pose proof (calculate_any_objects T N srt k o1 o2 w1 w2 a) as H.
    destruct (calculate srt k w1 a o1) as [oa ra], (calculate srt k w2 a o2) as [ob rb]. destruct H as [<- H].
    destruct ra as [x|]; [|reflexivity]. cbn [rbind]. apply (H x eq_refl).
  Qed.
  Lemma b_from_eq w' mc o : b_from srt k kw w mags delta mc =
    (let '(o', r) := calculate srt k w' (with_kw (above mags delta mc) mc delta kw) o in let? _ := r in b_value o').
  Proof.
    rewrite (calc_b_any w' w _ o new_obj). unfold b_from, estimate_b. change (sample_from mags delta mc) with (above mags delta mc).
    destruct (calculate srt k w _ new_obj) as [o' [x|]]; [|reflexivity]. cbn [rbind]. destruct (b_value o'); reflexivity.
  Qed.
  Lemma ks_one_outcome ii mc o : rmap (fun x => (mc, x)) (snd (ks_one srt k kw u e w mags delta bv n ksl ii mc o)) = ks_outcome srt k kw u e w mags delta bv n ksl (ii, mc).
  Proof.
    unfold ks_one, ks_outcome. cbn [fst snd]. change (sample_from mags delta mc) with (above mags delta mc). destruct bv as [b|].
    - cbn [snd rbind]. destruct (match ksl with None => _ | Some _ => _ end) as [ks|]; [|reflexivity]. cbn [rbind].
      destruct (ks_test_gr _ _ _ _ _ _ _ _ _ _); reflexivity.
    - rewrite (b_from_eq w mc o). destruct (calculate srt k w _ o) as [o' r]. cbn [snd]. destruct (let? _ := r in b_value o') as [b|]; [|reflexivity]. cbn [rbind].
      destruct (match ksl with None => _ | Some _ => _ end) as [ks|]; [|reflexivity]. cbn [rbind].
      destruct (ks_test_gr _ _ _ _ _ _ _ _ _ _); reflexivity.
  Qed.
  Notation outcome := (ks_outcome srt k kw u e w mags delta bv n ksl).
  (** testing one magnitude after the other, optionally stopping at the first that passes *)
  Fixpoint run_tests (stop : bool) (l : list (nat * T)) : res (list (T * (T * T * T))) :=
    match l with
    | [] => Ok []
    | q :: l => let? t := outcome q in if passes pp t && stop then Ok [t] else let? ts := run_tests stop l in Ok (t :: ts)
    end.
  Lemma ks_loop_run stop mcs : forall ii o, ks_loop srt k kw u e w mags delta bv n ksl pp stop ii mcs o = run_tests stop (combine (seq ii (length mcs)) mcs).
  Proof.
    induction mcs as [|mc mcs IH]; intros ii o; [reflexivity|]. cbn [ks_loop length seq combine run_tests].
    rewrite <- (ks_one_outcome ii mc o). destruct (ks_one _ _ _ _ _ _ _ _ _ _ _ ii mc o) as [o' [x|]]; cbn [snd rmap rbind]; [|reflexivity].
    unfold passes. cbn [snd]. destruct (nleb pp (fst (fst x)) && stop); [reflexivity|]. rewrite IH. reflexivity.
  Qed.
  Lemma run_all l : run_tests false l = mapM outcome l.
  Proof. induction l as [|q l IH]; [reflexivity|]. cbn [run_tests mapM]. rewrite IH. destruct (outcome q); [|reflexivity]. cbn [rbind]. rewrite andb_false_r. reflexivity. Qed.
  Lemma run_stop l r : run_tests true l = Ok r -> exists l1 l2, l = l1 ++ l2 /\ mapM outcome l1 = Ok r /\
    ((l2 = [] /\ forall t, In t r -> passes pp t = false) \/ exists r1 t, r = r1 ++ [t] /\ passes pp t = true /\ forall t, In t r1 -> passes pp t = false).
  Proof.
    revert r. induction l as [|q l IH]; intros r H; cbn [run_tests] in H.
    - injection H as <-. exists [], []. repeat split. left. split; [reflexivity|intros t []].
    - destruct (outcome q) as [t|] eqn:E; [|discriminate]. cbn [rbind] in H. rewrite andb_true_r in H. destruct (passes pp t) eqn:Ep.
      + injection H as <-. exists [q], l. split; [reflexivity|]. split; [cbn; rewrite E; reflexivity|]. right. exists [], t. repeat split; auto. intros ? [].
      + destruct (run_tests true l) as [ts|] eqn:Er; [|discriminate]. cbn [rbind] in H. injection H as <-.
        destruct (IH ts eq_refl) as (l1 & l2 & -> & Hm & Hc). exists (q :: l1), l2. split; [reflexivity|]. split; [cbn; rewrite E; cbn; rewrite Hm; reflexivity|].
        destruct Hc as [[-> Hc]|(r1 & t' & -> & Hp & Hc)].
        * left. split; [reflexivity|]. intros t0 [<-|H0]; auto.
        * right. exists (t :: r1), t'. split; [reflexivity|]. split; [exact Hp|]. intros t0 [<-|H0]; auto.
  Qed.
  Lemma stop_of_all l r0 : mapM outcome l = Ok r0 -> exists r l2, run_tests true l = Ok r /\ r0 = r ++ l2 /\
     find (passes pp) r = find (passes pp) r0 /\ (find (passes pp) r = None -> l2 = []).
  Proof.
    revert r0. induction l as [|q l IH]; intros r0 H; cbn [mapM] in H.
    - injection H as <-. exists [], []. cbn. auto.
    - destruct (outcome q) as [t|] eqn:E; [|discriminate]. cbn [rbind] in H. destruct (mapM outcome l) as [ts|] eqn:Em; [|discriminate]. cbn [rbind] in H. injection H as <-.
      cbn [run_tests]. rewrite E. cbn [rbind]. rewrite andb_true_r. destruct (passes pp t) eqn:Ep.
      + exists [t], ts. cbn [find]. rewrite Ep. repeat split; auto. discriminate.
      + destruct (IH ts eq_refl) as (r & l2 & -> & -> & Hf & Hn). cbn [rbind]. exists (t :: r), l2. cbn [find]. rewrite Ep. auto.
  Qed.
End C42.

Section C42thm.
  Context (T : Type) (N : Num T) (srt : list T -> list nat) (k : kind) (kw : @bkwargs T) (u e : nat -> nat -> nat -> T).
  Lemma estimate_mc_ks_ok w mags delta mcs_test pp stop bv n ksl r :
    estimate_mc_ks srt k kw u e w mags delta mcs_test pp stop bv n ksl = Ok r ->
    exists mcs, mcs_of mags delta mcs_test = Ok mcs /\ run_tests srt k kw u e w mags delta bv n ksl pp stop (numbered mcs) = Ok (ks_tested r) /\
      ks_best r = option_map (fun t => (fst t, snd (snd t))) (find (passes pp) (ks_tested r)).
  Proof.
    unfold estimate_mc_ks. destruct (mcs_of mags delta mcs_test) as [mcs|]; [|discriminate]. cbn [rbind]. intros H. exists mcs. split; [reflexivity|].
    destruct (match bv with None => _ | Some _ => _ end) as [[]|]; [|discriminate]. cbn [rbind] in H.
    destruct (if w then _ else _) as [[]|]; [|discriminate]. cbn [rbind] in H. rewrite ks_loop_run in H.
    destruct (run_tests _ _ _ _ _ _ _ _ _ _ _ _ _ _) as [ts|]; [|discriminate]. cbn [rbind] in H. injection H as <-. cbn [ks_tested ks_best]. auto.
  Qed.
End C42thm.

(** The magnitudes are tested in increasing order, each with the result that the public
    functions give; without stop_when_passed all of them, otherwise up to the first that
    passes. *)
Theorem C42_tested : forall T (N : Num T) srt k kw u e w mags delta mcs_test pp stop bv n ksl (r : ks_result T),
  estimate_mc_ks srt k kw u e w mags delta mcs_test pp stop bv n ksl = Ok r ->
  exists mcs l1 l2, mcs_of mags delta mcs_test = Ok mcs /\ numbered mcs = l1 ++ l2 /\
    mapM (ks_outcome srt k kw u e w mags delta bv n ksl) l1 = Ok (ks_tested r) /\
    (l2 <> [] -> stop = true /\ exists r1 t, ks_tested r = r1 ++ [t] /\ passes pp t = true) /\
    (stop = true -> forall r1 t t' r2, ks_tested r = r1 ++ t :: t' :: r2 -> passes pp t = false).
Proof.
  intros T N srt k kw u e w mags delta mcs_test pp stop bv n ksl r H. apply estimate_mc_ks_ok in H. destruct H as (mcs & Em & Er & _). exists mcs.
  destruct stop.
  - apply run_stop in Er. destruct Er as (l1 & l2 & E & Hm & Hc). exists l1, l2. split; [exact Em|]. split; [exact E|]. split; [exact Hm|].
    destruct Hc as [[-> Hc]|(r1 & t & E1 & Hp & Hc)].
    + split; [congruence|]. intros _ r1 t t' r2 E2. apply Hc. rewrite E2. apply in_app_iff. right; left; reflexivity.
    + split; [intros _; split; [reflexivity|eauto]|]. intros _ r1' t1 t2 r2 E2. apply Hc. rewrite E1 in E2.
      destruct r2 as [|x r2 _] using rev_ind.
      * change (r1' ++ [t1; t2]) with (r1' ++ [t1] ++ [t2]) in E2. rewrite app_assoc in E2. apply app_inj_tail in E2. destruct E2 as [-> _]. apply in_app_iff. right; left; reflexivity.
      * change (r1' ++ t1 :: t2 :: r2 ++ [x]) with (r1' ++ (t1 :: t2 :: r2) ++ [x]) in E2. rewrite app_assoc in E2. apply app_inj_tail in E2. destruct E2 as [-> _]. apply in_app_iff. right; left; reflexivity.
  - rewrite run_all in Er. exists (numbered mcs), []. rewrite app_nil_r. repeat split; auto; try congruence.
Qed.
Print Assumptions C42_tested.
(** best_mc and best_b_value belong to the first tested magnitude that passes; None exactly
    when none passes *)
Theorem C42_best : forall T (N : Num T) srt k kw u e w mags delta mcs_test pp stop bv n ksl (r : ks_result T),
  estimate_mc_ks srt k kw u e w mags delta mcs_test pp stop bv n ksl = Ok r ->
  match ks_best r with
  | None => forall mc p d b, In (mc, (p, d, b)) (ks_tested r) -> nleb pp p = false
  | Some (mc, b) => exists l1 p d l2, ks_tested r = l1 ++ (mc, (p, d, b)) :: l2 /\ nleb pp p = true /\
                      forall mc' p' d' b', In (mc', (p', d', b')) l1 -> nleb pp p' = false
  end.
Proof.
  intros T N srt k kw u e w mags delta mcs_test pp stop bv n ksl r H. apply estimate_mc_ks_ok in H. destruct H as (mcs & _ & _ & ->).
  induction (ks_tested r) as [|[mc [[p d] b]] l IH]; [intros ? ? ? ? []|]. cbn [find]. destruct (passes pp (mc, (p, d, b))) eqn:E; cbn [option_map].
  - cbn [fst snd]. exists [], p, d, l. split; [reflexivity|]. split; [exact E|]. intros ? ? ? ? [].
  - destruct (find (passes pp) l) as [[mc' [[p' d'] b']]|]; cbn [option_map fst snd] in *.
    + destruct IH as (l1 & p0 & d0 & l2 & -> & Hp & Hl). exists ((mc, (p, d, b)) :: l1), p0, d0, l2. split; [reflexivity|]. split; [exact Hp|].
      intros m1 p1 d1 b1 [H1|H1]; [injection H1 as <- <- <- <-; exact E|eapply Hl; exact H1].
    + intros m1 p1 d1 b1 [H1|H1]; [injection H1 as <- <- <- <-; exact E|eapply IH; exact H1].
Qed.
Print Assumptions C42_best.
(** stop_when_passed only shortens the report *)
Theorem C42_stop_same_selection : forall T (N : Num T) srt k kw u e w mags delta mcs_test pp bv n ksl (r0 : ks_result T),
  estimate_mc_ks srt k kw u e w mags delta mcs_test pp false bv n ksl = Ok r0 ->
  exists r rest, estimate_mc_ks srt k kw u e w mags delta mcs_test pp true bv n ksl = Ok r /\
    ks_best r = ks_best r0 /\ ks_tested r0 = ks_tested r ++ rest /\ (ks_best r0 = None -> rest = []).
Proof.
  intros T N srt k kw u e w mags delta mcs_test pp bv n ksl r0 H. pose proof (estimate_mc_ks_ok _ _ _ _ _ _ _ _ _ _ _ _ _ _ _ _ _ H) as (mcs & Em & Er & Eb).
  rewrite run_all in Er. apply (stop_of_all srt k kw u e w mags delta bv n ksl pp) in Er. destruct Er as (r & l2 & Er & E0 & Ef & Hn).
  unfold estimate_mc_ks in *. rewrite Em in *. cbn [rbind] in *.
  destruct (match bv with None => _ | Some _ => _ end) as [[]|]; [|discriminate]. cbn [rbind] in *.
  destruct (if w then _ else _) as [[]|]; [|discriminate]. cbn [rbind] in *. rewrite ks_loop_run in *. rewrite Er. cbn [rbind]. eexists. exists l2. split; [reflexivity|].
  cbn [ks_best ks_tested]. fold (passes pp). rewrite Eb, E0, <- E0, <- Ef. split; [reflexivity|]. split; [reflexivity|].
  intros Hnone. apply Hn. destruct (find (passes pp) r); [discriminate|reflexivity].
Qed.
Print Assumptions C42_stop_same_selection.
(** In exact arithmetic the given magnitudes are tested in increasing order without
    duplicates, so best_mc is the smallest of them that passes: every smaller one has been
    tested and has failed. *)
Open Scope R_scope.
Lemma mapM_map_fst {T} {N : Num T} srt k kw u e w mags delta bv n ksl l r :
  mapM (ks_outcome (T := T) srt k kw u e w mags delta bv n ksl) l = Ok r -> map fst r = map snd l.
Proof.
  revert r. induction l as [|q l IH]; intros r H; cbn [mapM] in H; [injection H as <-; reflexivity|].
  destruct (ks_outcome _ _ _ _ _ _ _ _ _ _ _ q) as [t|] eqn:E; [|discriminate]. cbn [rbind] in H. destruct (mapM _ l) as [ts|]; [|discriminate]. cbn [rbind] in H. injection H as <-. cbn [map]. rewrite (IH ts eq_refl). f_equal.
  unfold ks_outcome in E. destruct (match bv with Some _ => _ | None => _ end); [|discriminate]. cbn [rbind] in E. destruct (match ksl with None => _ | Some _ => _ end); [|discriminate]. cbn [rbind] in E.
  destruct (ks_test_gr _ _ _ _ _ _ _ _ _ _); [|discriminate]. cbn [rbind] in E. injection E as <-. reflexivity.
Qed.
Lemma snd_numbered {A} (l : list A) : map snd (numbered l) = l.
Proof. generalize 0%nat. induction l as [|a l IH]; intros i; [reflexivity|]. cbn. rewrite IH. reflexivity. Qed.
Lemma isort_uniq cs : isort nsort_le (np_unique (map Fin cs)) = map Fin (uniqR cs).
Proof.
  rewrite np_unique_fin, (isort_map Fin rle) by reflexivity. f_equal. rewrite <- (uniqR_strict (isort rle (uniqR cs))).
  - apply strict_sorted_ext; try apply uniqR_sorted. intros x. rewrite uniqR_in. split; apply Permutation_in; [|apply Permutation_sym]; apply Permutation_sym; apply isort_perm || (apply Permutation_sym, isort_perm).
  - assert (S := uniqR_sorted cs). induction S as [|a l S IH F]; [constructor|]. cbn [isort].
    replace (isort rle l) with l in *.
    + destruct l as [|b l]; [repeat constructor|]. cbn [insert_by]. rewrite Forall_forall in F. rewrite (proj2 (rle_true _ _)) by (left; apply F; left; reflexivity). constructor; [exact IH|]. rewrite Forall_forall. exact F.
    + clear -S. induction S as [|a l S IH F]; [reflexivity|]. cbn [isort]. rewrite <- IH. destruct l as [|b l]; [reflexivity|]. cbn [insert_by]. rewrite Forall_forall in F. rewrite (proj2 (rle_true _ _)) by (left; apply F; left; reflexivity). reflexivity.
Qed.
Theorem C42_best_is_smallest : forall srt k kw u e w mags delta cs pp stop bv n ksl r mc b,
  estimate_mc_ks srt k kw u e w mags delta (Some (map Fin cs)) pp stop bv n ksl = Ok r ->
  ks_best r = Some (mc, b) ->
  exists c, mc = Fin c /\ In c cs /\
    forall c', In c' cs -> c' < c -> exists p d b', In (Fin c', (p, d, b')) (ks_tested r) /\ nleb pp p = false.
Proof.
  intros srt k kw u e w mags delta cs pp stop bv n ksl r mc b H Hb. pose proof (C42_best _ _ _ _ _ _ _ _ _ _ _ _ _ _ _ _ _ H) as B. rewrite Hb in B.
  apply C42_tested in H. destruct H as (mcs & l1 & l2 & Em & El & Hm & _). cbn [mcs_of] in Em. rewrite isort_uniq in Em. injection Em as <-.
  destruct B as (r1 & p & d & r2 & Et & Hp & Hf). apply mapM_map_fst in Hm.
  assert (Ec : map Fin (uniqR cs) = map snd (l1 ++ l2)) by (rewrite <- El, snd_numbered; reflexivity).
  rewrite map_app, <- Hm, Et, map_app in Ec. cbn [map fst] in Ec.
  assert (K : exists c a1 a2, uniqR cs = a1 ++ c :: a2 /\ map Fin a1 = map fst r1 /\ mc = Fin c).
  { clear -Ec. revert r1 Ec. induction (uniqR cs) as [|x l IH]; intros r1 Ec; [destruct r1; discriminate|]. destruct r1 as [|y r1]; cbn [map app] in Ec; injection Ec as E1 E2.
    - exists x, [], l. auto.
    - destruct (IH r1 E2) as (c & a1 & a2 & -> & E & ->). exists c, (x :: a1), a2. cbn. rewrite E, E1. auto. }
  destruct K as (c & a1 & a2 & Eu & E1 & ->). exists c. split; [reflexivity|]. split; [rewrite <- uniqR_in, Eu; apply in_app_iff; right; left; reflexivity|].
  intros c' Hc' Hlt. rewrite <- uniqR_in, Eu in Hc'. pose proof (uniqR_sorted cs) as S. rewrite Eu in S.
  assert (In c' a1).
  { apply in_app_iff in Hc'. destruct Hc' as [Hc'|Hc']; [exact Hc'|]. exfalso. clear -S Hc' Hlt. induction a1 as [|a a1 IH]; [|apply IH; cbn in S; inversion S; assumption].
    cbn in S. inversion S as [|? ? _ F]; subst. rewrite Forall_forall in F. destruct Hc' as [->|Hc']; [lra|]. specialize (F _ Hc'). lra. }
  apply (in_map Fin) in H. rewrite E1 in H. apply in_map_iff in H. destruct H as ([m' [[p' d'] b']] & Em' & Hi). cbn in Em'. subst m'.
  exists p', d', b'. split; [rewrite Et; apply in_app_iff; left; exact Hi|]. eapply Hf; exact Hi.
Qed.
Print Assumptions C42_best_is_smallest.
(** by default all bins from the smallest magnitude up to the last one below the largest *)
Lemma arange_exact d lo m : 0 < d -> np_arange (Fin (IZR lo * d)) (Fin (IZR (lo + Z.of_nat m) * d)) (Fin d) = Ok (map Fin (grid d lo m)).
Proof.
  intros Hd. unfold np_arange. rewrite x_sub, x_div by lra. unfold nceilZ. rewrite x_opp, x_floorZ.
  replace (- ((IZR (lo + Z.of_nat m) * d - IZR lo * d) / d)) with (IZR (- Z.of_nat m)) by (rewrite opp_IZR, plus_IZR; field; lra).
  rewrite (Int_part_unique _ (- Z.of_nat m)) by lra. rewrite Z.opp_involutive, Nat2Z.id.
  f_equal. unfold grid. rewrite map_map. apply map_ext. intros i. rewrite x_ofnat, x_add, x_sub, x_mul, x_add. f_equal. rewrite plus_IZR, INR_IZR_INZ. lra.
Qed.
Theorem C42_default_magnitudes : forall xs delta lo m, epsR <= decR delta ->
  is_min (IZR lo * decR delta) xs -> is_max (IZR (lo + Z.of_nat m) * decR delta) xs ->
  mcs_of (map Fin xs) delta None = Ok (map Fin (grid (decR delta) lo m)).
Proof.
  intros xs delta lo m He Hmin Hmax. pose proof epsR_bounds. assert (Hd : 0 < decR delta) by lra. unfold mcs_of.
  destruct xs as [|x xs]; [destruct Hmin as [[] _]|]. cbn [map np_min np_max]. rewrite x_amin, x_amax. cbn [rbind].
  assert (E1 : Rminl x xs = IZR lo * decR delta).
  { destruct Hmin as [Hi Hm]. apply Rle_antisym; [apply Rminl_le; exact Hi|]. apply Hm, Rminl_in. }
  assert (E2 : Rmaxl x xs = IZR (lo + Z.of_nat m) * decR delta).
  { destruct Hmax as [Hi Hm]. apply Rle_antisym; [apply Hm, Rmaxl_in|]. apply Rmaxl_ge. exact Hi. }
  rewrite E1, E2, x_dec_val, arange_exact by assumption. cbn [rbind]. rewrite bin_to_precision_fin by assumption. do 2 f_equal.
  transitivity (map (fun y => y) (grid (decR delta) lo m)); [|apply map_id]. apply map_ext_in. intros y Hy. apply grid_in in Hy. destruct Hy as (j & _ & ->). apply binR_grid; assumption.
Qed.
Print Assumptions C42_default_magnitudes.
(** the binning of the magnitudes is checked before any test, unless the b-value is given *)
Theorem C42_unbinned_rejected : forall T (N : Num T) srt k kw u e w mags delta mcs_test pp stop n ksl mcs,
  mcs_of mags delta mcs_test = Ok mcs -> binning_test mags delta (lit 1 15) false = Ok false ->
  estimate_mc_ks (T := T) srt k kw u e w mags delta mcs_test pp stop None n ksl = Err ValueError.
Proof. intros T N srt k kw u e w mags delta mcs_test pp stop n ksl mcs E H. unfold estimate_mc_ks. rewrite E. cbn [rbind]. rewrite H. reflexivity. Qed.
Print Assumptions C42_unbinned_rejected.

(** ** C43: the option "warnings" *)
Theorem C43_ks_test_gr : forall u e w w' mags mc delta b n ks_ds weights, 0 < b -> 0 < decR delta ->
  length (np_unique mags) <> 1%nat ->
  ks_test_gr u e w mags (Fin mc) delta (Fin b) n ks_ds weights = ks_test_gr u e w' mags (Fin mc) delta (Fin b) n ks_ds weights.
Proof.
  assert (K : forall u e w mags mc delta b n ks_ds weights, 0 < b -> 0 < decR delta -> length (np_unique mags) <> 1%nat ->
    ks_test_gr u e w mags (Fin mc) delta (Fin b) n ks_ds weights = ks_test_gr u e false mags (Fin mc) delta (Fin b) n ks_ds weights).
  { intros u e w mags mc delta b n ks_ds weights Hb Hd Hu. destruct w; [|reflexivity]. unfold ks_test_gr. destruct mags as [|m mags].
    - destruct ks_ds as [ks|]; [reflexivity|]. cbn [np_min rbind]. set (top := nadd _ (Fin mc)).
      assert (Etop : top = NInf).
      { unfold top. rewrite x_one, x_div by lra. cbn [length]. rewrite !x_ofnat, x_ofZ, !x_mul. cbn [INR]. rewrite Rmult_0_l, Rmult_0_l.
        cbn. destruct (Rlt_dec 0 0); [lra|]. destruct (Req_EM_T 0 0); [|lra]. destruct (Rlt_dec 0 (1 / b)); [reflexivity|]. exfalso. apply n1. apply Rdiv_lt_0_compat; lra. }
      rewrite Etop, ks_bins_nonfin by auto. reflexivity.
    - destruct (Nat.eqb_spec (length (np_unique (m :: mags))) 1) as [E|E]; [contradiction|]. reflexivity. }
  intros. rewrite (K u e w), (K u e w') by assumption. reflexivity.
Qed.
Print Assumptions C43_ks_test_gr.

(** binning_test without the check for larger bins raises for a sample only if it has no
    number or delta_m is unusable *)
Lemma binning_test_raises {T} {N : Num T} (x y : list T) delta tol r : (exists v, In v y /\ nisnan v = false) ->
  binning_test x delta tol false = Ok r -> exists r', binning_test y delta tol false = Ok r'.
Proof.
  intros (v & Hv & Hn) H. unfold binning_test in *. destruct x as [|x0 x]; [discriminate|]. destruct y as [|y0 y]; [destruct Hv|].
  destruct (shift_to_min (x0 :: x)) as [xs|]; [|discriminate]. cbn [rbind] in H. rewrite andb_false_r in *.
  assert (S : exists ys, shift_to_min (y0 :: y) = Ok ys).
  { unfold shift_to_min. destruct (filter (fun v0 => negb (nisnan v0)) (y0 :: y)) as [|a t] eqn:E; [|eexists; reflexivity].
    exfalso. assert (I : In v (filter (fun v0 => negb (nisnan v0)) (y0 :: y))) by (apply filter_In; split; [exact Hv|rewrite Hn; reflexivity]). rewrite E in I. destruct I. }
  destruct S as (ys & ->). cbn [rbind]. unfold binning_test_delta in *. destruct (nltb (dec_val delta) tol); [eexists; reflexivity|].
  unfold bin_to_precision in *. destruct (nltb (dec_val delta) EPSILON); [discriminate|]. cbn [rbind] in *. rewrite andb_false_r in *. eexists; reflexivity.
Qed.
Section Stab.
  Context {T : Type} {N : Num T} (srt : list T -> list nat) (k : kind) (kw : @bkwargs T).
  Lemma b_over_any mags delta mcs : forall w w' o o', snd (b_over srt k kw w mags delta mcs o) = snd (b_over srt k kw w' mags delta mcs o').
  Proof.
    induction mcs as [|c mcs IH]; intros w w' o o'; [reflexivity|]. cbn [b_over]. set (a := with_kw _ _ _ _).
    pose proof (calc_b_any srt k w w' a o o') as H.
    destruct (calculate srt k w a o) as [oa ra], (calculate srt k w' a o') as [ob rb]. rewrite H. destruct (let? _ := rb in b_value ob) as [b|]; [|reflexivity].
    pose proof (IH w w' oa ob) as E. destruct (b_over srt k kw w mags delta mcs oa), (b_over srt k kw w' mags delta mcs ob). cbn [snd] in *. rewrite E. reflexivity.
  Qed.
  Lemma stab_one_any draws mags delta range steps mc w w' o o' :
    snd (stab_one srt k kw draws w mags delta range steps mc o) = snd (stab_one srt k kw draws w' mags delta range steps mc o').
  Proof.
    unfold stab_one. set (a := with_kw _ _ _ _). pose proof (calculate_any_objects T N srt k o o' w w' a) as H.
    destruct (calculate srt k w a o) as [oa ra], (calculate srt k w' a o') as [ob rb]. destruct H as [<- H].
    destruct ra as [x|]; [|reflexivity]. destruct (H x eq_refl) as (_ & _ & _ & _ & _ & Eb & _ & _ & Es & _ & Em). cbn [rbind]. rewrite Eb.
    assert (E : match k with BMorePositive => more_positive_std srt w draws oa | _ => est_std oa end = match k with BMorePositive => more_positive_std srt w' draws ob | _ => est_std ob end).
    { destruct k; try exact Es. destruct (Em (or_intror eq_refl)) as (_ & _ & Ed). apply Ed. }
    rewrite E. clear E H Em. destruct (b_value ob) as [b|]; [|reflexivity]. cbn [rbind]. destruct (match k with BMorePositive => _ | _ => _ end) as [s|]; [|reflexivity]. cbn [rbind].
    destruct (np_arange mc _ _) as [ar|]; [|reflexivity]. cbn [rbind]. destruct (np_max mags) as [hi|]; [|reflexivity]. cbn [rbind].
    pose proof (b_over_any mags delta (filter (fun c => nleb c hi) ar) w w' oa ob) as B.
    destruct (b_over srt k kw w mags delta _ oa), (b_over srt k kw w' mags delta _ ob). cbn [snd] in *. rewrite B. reflexivity.
  Qed.
  Lemma stab_loop_any draws mags delta range steps stop mcs : forall ii diffs best w w' o o',
    stab_loop srt k kw draws w mags delta range steps stop ii mcs diffs best o = stab_loop srt k kw draws w' mags delta range steps stop ii mcs diffs best o'.
  Proof.
    induction mcs as [|mc mcs IH]; intros ii diffs best w w' o o'; [reflexivity|]. cbn [stab_loop].
    pose proof (stab_one_any (draws ii) mags delta range steps mc w w' o o') as E.
    destruct (stab_one _ _ _ _ w _ _ _ _ _ o) as [oa ra], (stab_one _ _ _ _ w' _ _ _ _ _ o') as [ob rb]. cbn [snd] in E. subst rb. destruct ra as [[b diff]|]; [|reflexivity]. cbn [rbind].
    destruct (nleb diff one); [destruct stop; [reflexivity|]|]; rewrite (IH _ _ _ w w' oa ob); reflexivity.
  Qed.
End Stab.
Lemma stab_mcs_numbers mags delta range steps mcs l : 0 < decR delta -> (mcs = None -> steps <> 1%nat) -> stab_mcs mags delta range steps mcs = Ok l -> exists v, In v l /\ nisnan v = false.
Proof.
  intros Hd Hs. unfold stab_mcs. destruct mcs as [l0|].
  - destruct (np_max mags) as [hi|]; [|discriminate]. cbn [rbind]. destruct (filter _ l0) as [|v t] eqn:E; [discriminate|]. cbn [length Nat.ltb Nat.leb]. intros H. injection H as <-. exists v. split; [left; reflexivity|].
    assert (Hv : In v (filter (fun c => nleb (nadd c range) hi) l0)) by (rewrite E; left; reflexivity). apply filter_In in Hv. destruct Hv as [_ Hv]. destruct v; try reflexivity. cbn in Hv. destruct range; discriminate.
  - destruct (np_min mags) as [lo|]; [|discriminate]. cbn [rbind]. destruct (np_max mags) as [hi|]; [|discriminate]. cbn [rbind].
    unfold np_arange. destruct (nceilZ _) as [z|] eqn:Ez; [|discriminate]. cbn [rbind]. set (ar := map _ (seq 0 (Z.to_nat z))).
    assert (Hfin : exists r, lo = Fin r).
    { destruct lo; [eauto|exfalso..]; unfold nceilZ in Ez; cbn in Ez; destruct hi; cbn in Ez; rewrite ?x_dec_val in Ez; cbn in Ez; try discriminate;
        destruct (Req_EM_T (decR delta) 0); try lra; cbn in Ez; destruct (Rlt_dec 0 (decR delta)); try lra; cbn in Ez; discriminate. }
    destruct Hfin as (r & ->). unfold bin_to_precision. destruct (nltb _ _); [discriminate|]. cbn [rbind]. rewrite map_length.
    destruct (length ar <=? steps)%nat eqn:El; [discriminate|]. apply Nat.leb_gt in El. intros H. injection H as <-.
    assert (Ear : exists q t, ar = Fin q :: t).
    { assert (Ln : length ar = Z.to_nat z) by (unfold ar; rewrite map_length, seq_length; reflexivity). unfold ar in *. destruct (Z.to_nat z); [cbn in El; lia|]. cbn [seq map]. rewrite x_ofnat, x_dec_val, x_add, x_sub, x_mul, x_add. eauto. }
    destruct Ear as (q & t & E). rewrite E in *. cbn [map length] in *. rewrite bin_elem_fin by lra.
    exists (Fin (binR (decR delta) q)). split; [|reflexivity]. unfold upto. rewrite (map_length (bin_elem delta) t) || cbn [length]. rewrite ?map_length.
    specialize (Hs eq_refl). destruct (Z.ltb_spec (- Z.of_nat steps + 1) 0).
    + destruct (Z.to_nat (Z.of_nat (S (length t)) + (- Z.of_nat steps + 1))) eqn:E2; [lia|]. left; reflexivity.
    + destruct (Z.to_nat (- Z.of_nat steps + 1)) eqn:E2; [lia|]. left; reflexivity.
Qed.
(** the result of estimate_mc_b_stability does not depend on the option, whenever the magnitudes
    to test are given or the stability range has more than one step *)
Theorem C43_b_stability : forall srt k kw draws w w' mags delta mcs_test stop range, 0 < decR delta ->
  (mcs_test = None -> forall ar, np_arange zero range (dec_val delta) = Ok ar -> length ar <> 1%nat) ->
  estimate_mc_b_stability (T := xr) srt k kw draws w mags delta mcs_test stop range
  = estimate_mc_b_stability srt k kw draws w' mags delta mcs_test stop range.
Proof.
  intros srt k kw draws w w' mags delta mcs_test stop range Hd Hs. unfold estimate_mc_b_stability.
  destruct (np_arange zero range (dec_val delta)) as [ar|]; [|reflexivity]. cbn [rbind].
  destruct (stab_mcs mags delta range (length ar) mcs_test) as [mcs|] eqn:Em; [|reflexivity]. cbn [rbind].
  destruct (binning_test mags delta (lit 1 15) false) as [ok|] eqn:Eb; [|reflexivity]. cbn [rbind]. destruct ok; [|reflexivity]. cbn [negb].
  assert (Hex : exists v, In v mcs /\ nisnan v = false) by exact (stab_mcs_numbers mags delta range (length ar) mcs_test mcs Hd (fun K => Hs K ar eq_refl) Em).
  destruct (binning_test_raises mags mcs delta (lit 1 15) true Hex Eb) as (r' & E).
  rewrite E. cbn [rbind]. rewrite (stab_loop_any srt k kw draws mags delta range (length ar) stop mcs 0 [] None w w' new_obj new_obj).
  destruct w, w'; reflexivity.
Qed.
Print Assumptions C43_b_stability.
(** estimate_mc_ks: the same for all inputs for which no tested sample has exactly one value *)
Theorem C43_estimate_mc_ks : forall srt k kw u e w w' mags delta mcs_test pp stop b n ksl mcs, 0 < b -> 0 < decR delta ->
  mcs_of mags delta mcs_test = Ok (map Fin mcs) -> mcs <> [] -> (exists r, binning_test mags delta (lit 1 15) false = Ok r) ->
  (forall c, In c mcs -> length (np_unique (sample_from mags delta (Fin c))) <> 1%nat) ->
  estimate_mc_ks srt k kw u e w mags delta mcs_test pp stop (Some (Fin b)) n ksl = estimate_mc_ks srt k kw u e w' mags delta mcs_test pp stop (Some (Fin b)) n ksl.
Proof.
  intros srt k kw u e w w' mags delta mcs_test pp stop b n ksl mcs Hb Hd Hm Hne (r & Hbt) Hu. unfold estimate_mc_ks. rewrite Hm. cbn [rbind].
  assert (Hex : exists v, In v (map Fin mcs) /\ nisnan v = false).
  { destruct mcs as [|c mcs]; [congruence|]. exists (Fin c). split; [left; reflexivity|reflexivity]. }
  destruct (binning_test_raises mags (map Fin mcs) delta (lit 1 15) r Hex Hbt) as (r' & E).
  rewrite Hbt, E. cbn [rbind]. rewrite !ks_loop_run.
  assert (R : forall l ii, (forall c, In c l -> In c mcs) -> run_tests srt k kw u e w mags delta (Some (Fin b)) n ksl pp stop (combine (seq ii (length (map Fin l))) (map Fin l))
    = run_tests srt k kw u e w' mags delta (Some (Fin b)) n ksl pp stop (combine (seq ii (length (map Fin l))) (map Fin l))).
  { induction l as [|c l IH]; intros ii Hl; [reflexivity|]. cbn [map length seq combine run_tests]. rewrite IH by (intros; apply Hl; right; assumption).
    assert (Eo : ks_outcome srt k kw u e w mags delta (Some (Fin b)) n ksl (ii, Fin c) = ks_outcome srt k kw u e w' mags delta (Some (Fin b)) n ksl (ii, Fin c)).
    { unfold ks_outcome. cbn [rbind fst snd]. destruct (match ksl with None => _ | Some _ => _ end); [|reflexivity]. cbn [rbind]. rewrite (C43_ks_test_gr _ _ w w'); auto. apply Hu, Hl. left; reflexivity. }
    rewrite Eo. reflexivity. }
  rewrite (R mcs 0%nat) by auto. destruct w, w'; reflexivity.
Qed.
Print Assumptions C43_estimate_mc_ks.
Example C43_example : length (np_unique (map Fin [1; 2; 1])) <> 1%nat.
Proof. rewrite np_unique_fin, map_length. intros L. assert (A : In 1 (uniqR [1;2;1])) by (rewrite uniqR_in; cbn; auto). assert (B : In 2 (uniqR [1;2;1])) by (rewrite uniqR_in; cbn; auto).
  destruct (uniqR [1;2;1]) as [|z [|z' l]]; try discriminate. destruct A as [A|[]], B as [B|[]]. lra. Qed.

(** ** C86: one-valued samples *)
(** The sample [1] with mc = 1, b = 1, delta_m = 1: the p-value (for given synthetic
    distances) and the completeness magnitude depend on the option. *)
Theorem C86_single_value_sample_refuted :
  exists mags mcs ks b delta pp,
    (forall u e, exists p d l, ks_test_gr (T := xr) u e true mags (Fin 1) delta b 0 (Some ks) None = Ok (Fin 0, Fin 1, []) /\
                 ks_test_gr u e false mags (Fin 1) delta b 0 (Some ks) None = Ok (p, d, l) /\ p = Fin 1) /\
    (forall srt k kw u e, exists r r', estimate_mc_ks (T := xr) srt k kw u e true mags delta (Some mcs) pp true (Some b) 0 (Some [ks]) = Ok r /\
                 estimate_mc_ks srt k kw u e false mags delta (Some mcs) pp true (Some b) 0 (Some [ks]) = Ok r' /\
                 ks_best r = None /\ ks_best r' = Some (Fin 1, b)).
Proof.
  exists [Fin 1], [Fin 1], [Fin 1], (Fin 1), (mkdec 1 0), (Fin (1 / 10)).
  assert (D1 : decR (mkdec 1 0) = 1) by (unfold decR; cbn; lra).
  assert (W : forall u e, ks_test_gr (T := xr) u e true [Fin 1] (Fin 1) (mkdec 1 0) (Fin 1) 0 (Some [Fin 1]) None = Ok (Fin 0, Fin 1, [])) by reflexivity.
  assert (V : forall u e, exists d, ks_test_gr (T := xr) u e false [Fin 1] (Fin 1) (mkdec 1 0) (Fin 1) 0 (Some [Fin 1]) None = Ok (Fin 1, d, [Fin 1])).
  { intros u e. destruct (C44_distance_value u e false [1] 1 0 (mkdec 1 0) 1 0 [Fin 1]) as (p & D & E & _); try (rewrite D1; unfold epsR; cbn; lra); try discriminate; try lra.
    - rewrite D1. intros y [<-|[]]. exists 1%Z. split; [lra|lia].
    - rewrite D1. split; [left; cbn; lra|]. intros v [<-|[]]. cbn; lra.
    - rewrite D1 in E. replace (IZR 1 * 1) with 1 in E by lra. cbn [map] in E. exists (Fin D). rewrite E. do 3 f_equal.
      destruct (C44_distance_between_0_and_1 _ _ _ _ _ _ _ _ _ _ _ _ Rlt_0_1 ltac:(rewrite D1; unfold epsR; cbn; lra) E) as ([K|(r & K & Hr)] & _); [discriminate|]. injection K as ->.
      destruct (C44_p_value _ _ _ _ _ _ _ _ _ _ _ _ _ E) as [(_ & _ & K & _)|[_ ->]]; [discriminate|]. unfold count. cbn [filter]. rewrite x_leb, (proj2 (rle_true _ _)) by lra. cbn. f_equal. lra. }
  assert (A : above [Fin 1] (mkdec 1 0) (Fin 1) = [Fin 1]).
  { unfold above. cbn [filter]. rewrite x_dec_val, D1, x_two, x_div, x_sub, x_leb, (proj2 (rle_true _ _)) by lra. reflexivity. }
  assert (M : mcs_of [Fin 1] (mkdec 1 0) (Some [Fin 1]) = Ok [Fin 1]) by reflexivity.
  assert (BT : exists r, binning_test [Fin 1] (mkdec 1 0) (lit 1 15) false = Ok r).
  { unfold binning_test. cbn [shift_to_min filter negb nisnan XR rbind]. rewrite andb_false_r. unfold binning_test_delta. destruct (nltb _ _); [eauto|].
    unfold bin_to_precision. rewrite delta_ok_ltb by (rewrite D1; unfold epsR; cbn; lra). cbn [rbind]. rewrite andb_false_r. eauto. }
  split.
  - intros u e. destruct (V u e) as (d & E). exists (Fin 1), d, [Fin 1]. auto.
  - intros srt k kw u e. destruct BT as (r & BT). unfold estimate_mc_ks. rewrite M. cbn [rbind ks_loop]. rewrite BT. cbn [rbind ks_loop]. unfold ks_one. rewrite A. cbn [nth_error rbind]. rewrite W.
    destruct (V (u 0%nat) (e 0%nat)) as (d & ->). cbn [rbind fst snd]. rewrite !x_leb, (proj2 (rle_true (1 / 10) 1)) by lra. rewrite (proj2 (rle_false (1 / 10) 0)) by lra. cbn [andb rbind].
    eexists. eexists. split; [reflexivity|]. split; [reflexivity|]. cbn [ks_best find fst snd]. rewrite !x_leb, (proj2 (rle_true (1 / 10) 1)) by lra. rewrite (proj2 (rle_false (1 / 10) 0)) by lra. split; reflexivity.
Qed.
Print Assumptions C86_single_value_sample_refuted.
(** ** C87: no magnitude to test *)
Theorem C87_nothing_to_test_refuted : forall T (N : Num T) srt k kw u e mags delta pp stop b n ksl r,
  binning_test mags delta (lit 1 15) false = Ok r ->
  estimate_mc_ks (T := T) srt k kw u e true mags delta (Some []) pp stop (Some b) n ksl = Err ValueError /\
  estimate_mc_ks (T := T) srt k kw u e false mags delta (Some []) pp stop (Some b) n ksl = Ok (mkks None []).
Proof. intros T N srt k kw u e mags delta pp stop b n ksl r H. split; unfold estimate_mc_ks; cbn [mcs_of np_unique isort dedup_adj rbind]; [rewrite H; reflexivity|reflexivity]. Qed.
Print Assumptions C87_nothing_to_test_refuted.
