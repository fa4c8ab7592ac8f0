(** * C45: estimate_mc_b_stability *)
From Coq Require Import ZArith List Bool Lia Reals Lra Permutation Sorted.
From Verif Require Import Base Num XR RList SortLib Binning_model Spec_Binning Binning_proofs BinTest_proofs Fmd_proofs Props_Binning BValue_model BValue_run BValue_proofs Props_BValue2 Simulate_model Spec_BValue Mc_model Spec_Mc Props_Mc Props_Mc2.
Import ListNotations.

(** the stability of one magnitude, written with the public functions: its b-value and std;
    the b-values for all magnitudes of the stability range (up to the largest event); and the
    difference of their average to b in units of std *)
Section Outcome.
  Context {T : Type} {N : Num T}.
  Definition b_std_from (srt : list T -> list nat) (k : kind) (kw : @bkwargs T) (w : bool) (draws : list (list nat)) (mags : list T) (delta : dec) (mc : T) : res (T * T) :=
    match estimate_b srt k w (with_kw (sample_from mags delta mc) mc delta kw) PB true false draws with
    | Ok (OutBStd b s) => Ok (b, s) | Ok _ => Err TypeError | Err e => Err e end.
  Definition cutoffs (mags : list T) (delta : dec) (range : T) (mc : T) : res (list T) :=
    let? ar := np_arange mc (nadd mc range) (dec_val delta) in let? hi := np_max mags in Ok (filter (fun c => nleb c hi) ar).
  Definition stab_outcome srt k kw (draws : nat -> list (list nat)) w mags delta range (steps : nat) (q : nat * T) : res (T * (T * T)) :=
    let? (b, s) := b_std_from srt k kw w (draws (fst q)) mags delta (snd q) in
    let? cs := cutoffs mags delta range (snd q) in
    let? bs := mapM (b_from srt k kw w mags delta) cs in
    Ok (snd q, (b, ndiv (nabs (nsub (ndiv (nsum bs) (ofnat steps)) b)) s)).
  (** diff <= 1 *)
  Definition stable (t : T * (T * T)) : bool := nleb (snd (snd t)) one.
End Outcome.

Section C45.
  Context {T : Type} {N : Num T} (srt : list T -> list nat) (k : kind) (kw : @bkwargs T) (draws : nat -> list (list nat)) (w : bool) (mags : list T) (delta : dec)
    (range : T) (steps : nat).
  Notation outcome := (stab_outcome srt k kw draws w mags delta range steps).
  Lemma b_over_mapM cs : forall o, snd (b_over srt k kw w mags delta cs o) = mapM (b_from srt k kw w mags delta) cs.
  Proof.
    induction cs as [|c cs IH]; intros o; [reflexivity|]. cbn [b_over mapM]. rewrite (b_from_eq srt k kw w mags delta w c o).
    destruct (calculate srt k w _ o) as [o' r]. destruct (let? _ := r in b_value o') as [b|]; [|reflexivity]. cbn [rbind]. rewrite <- (IH o').
    destruct (b_over srt k kw w mags delta cs o') as [o'' [bs|]]; reflexivity.
  Qed.
  Lemma stab_one_outcome ii mc o : rmap (fun x => (mc, x)) (snd (stab_one srt k kw (draws ii) w mags delta range steps mc o)) = outcome (ii, mc).
  Proof.
    rewrite (stab_one_any srt k kw (draws ii) mags delta range steps mc w w o new_obj). unfold stab_one, stab_outcome, b_std_from, estimate_b, cutoffs. cbn [fst snd].
    change (sample_from mags delta mc) with (above mags delta mc).
    destruct (calculate srt k w _ new_obj) as [o' [x|]]; [|reflexivity]. cbn [rbind]. destruct (b_value o') as [b|]; [|reflexivity]. cbn [rbind].
    destruct (match k with BMorePositive => _ | _ => _ end) as [s|]; [|reflexivity]. cbn [rmap rbind].
    destruct (np_arange mc _ _) as [ar|]; [|reflexivity]. cbn [rbind]. destruct (np_max mags) as [hi|]; [|reflexivity]. cbn [rbind].
    rewrite <- (b_over_mapM (filter (fun c => nleb c hi) ar) o'). destruct (b_over srt k kw w mags delta _ o') as [o'' [bs|]]; reflexivity.
  Qed.
  Fixpoint run_stab (stop : bool) (l : list (nat * T)) : res (list (T * (T * T))) :=
    match l with
    | [] => Ok []
    | q :: l => let? t := outcome q in if stable t && stop then Ok [t] else let? ts := run_stab stop l in Ok (t :: ts)
    end.
  (** the bookkeeping of best_mc *)
  Fixpoint choose (diffs : list T) (best : option (T * T)) (l : list (T * (T * T))) : option (T * T) :=
    match l with
    | [] => best
    | (mc, (b, diff)) :: l =>
      choose (diffs ++ [diff]) (if nleb diff one && neqb diff (pymin_all (diffs ++ [diff])) then Some (mc, b) else best) l
    end.
  Lemma stab_loop_run stop mcs : forall ii diffs best o,
    stab_loop srt k kw draws w mags delta range steps stop ii mcs diffs best o
    = let? ts := run_stab stop (combine (seq ii (length mcs)) mcs) in Ok (choose diffs best ts, ts).
  Proof.
    induction mcs as [|mc mcs IH]; intros ii diffs best o; [reflexivity|]. cbn [stab_loop length seq combine run_stab].
    rewrite <- (stab_one_outcome ii mc o). destruct (stab_one _ _ _ _ _ _ _ _ _ mc o) as [o' [[b diff]|]]; cbn [snd rmap rbind]; [|reflexivity].
    unfold stable. cbn [snd]. destruct (nleb diff one) eqn:El; cbn [andb].
    - destruct stop; [cbn [rbind choose]; rewrite El; reflexivity|]. rewrite IH. destruct (run_stab false _) as [ts|]; [|reflexivity]. cbn [rbind choose]. rewrite El. reflexivity.
    - rewrite IH. destruct (run_stab stop _) as [ts|]; [|reflexivity]. cbn [rbind choose]. rewrite El. reflexivity.
  Qed.
  Lemma run_stab_all l : run_stab false l = mapM outcome l.
  Proof. induction l as [|q l IH]; [reflexivity|]. cbn [run_stab mapM]. rewrite IH. destruct (outcome q); [|reflexivity]. cbn [rbind]. rewrite andb_false_r. reflexivity. Qed.
  Lemma run_stab_stop l r : run_stab true l = Ok r -> exists l1 l2, l = l1 ++ l2 /\ mapM outcome l1 = Ok r /\
    ((l2 = [] /\ forall t, In t r -> stable t = false) \/ exists r1 t, r = r1 ++ [t] /\ stable t = true /\ forall t, In t r1 -> stable t = false).
  Proof.
    revert r. induction l as [|q l IH]; intros r H; cbn [run_stab] in H.
    - injection H as <-. exists [], []. repeat split. left. split; [reflexivity|intros t []].
    - destruct (outcome q) as [t|] eqn:E; [|discriminate]. cbn [rbind] in H. rewrite andb_true_r in H. destruct (stable t) eqn:Ep.
      + injection H as <-. exists [q], l. split; [reflexivity|]. split; [cbn; rewrite E; reflexivity|]. right. exists [], t. repeat split; auto. intros ? [].
      + destruct (run_stab true l) as [ts|] eqn:Er; [|discriminate]. cbn [rbind] in H. injection H as <-.
        destruct (IH ts eq_refl) as (l1 & l2 & -> & Hm & Hc). exists (q :: l1), l2. split; [reflexivity|]. split; [cbn; rewrite E; cbn; rewrite Hm; reflexivity|].
        destruct Hc as [[-> Hc]|(r1 & t' & -> & Hp & Hc)].
        * left. split; [reflexivity|]. intros t0 [<-|H0]; auto.
        * right. exists (t :: r1), t'. split; [reflexivity|]. split; [exact Hp|]. intros t0 [<-|H0]; auto.
  Qed.
End C45.

Lemma b_stability_ok {T} {N : Num T} srt k kw draws w mags delta mcs_test stop range (r : stab_result T) :
  estimate_mc_b_stability srt k kw draws w mags delta mcs_test stop range = Ok r ->
  exists ar mcs, np_arange zero range (dec_val delta) = Ok ar /\ stab_mcs mags delta range (length ar) mcs_test = Ok mcs /\
    run_stab srt k kw draws w mags delta range (length ar) stop (numbered mcs) = Ok (st_tested r) /\
    st_b r = option_map snd (choose [] None (st_tested r)) /\
    (choose [] None (st_tested r) = None -> st_mc r = None) /\
    (forall mc b, choose [] None (st_tested r) = Some (mc, b) -> if neqb mc zero then st_mc r = None else exists l, bin_to_precision (Some [mc]) delta = Ok l /\ st_mc r = hd_error l).
Proof.
  unfold estimate_mc_b_stability. destruct (np_arange zero range (dec_val delta)) as [ar|]; [|discriminate]. cbn [rbind].
  destruct (stab_mcs mags delta range (length ar) mcs_test) as [mcs|] eqn:Em; [|discriminate]. cbn [rbind]. intros H. exists ar, mcs. split; [reflexivity|]. split; [exact Em|].
  destruct (binning_test mags delta (lit 1 15) false) as [[|]|]; try discriminate. cbn [rbind negb] in H. destruct (if w then _ else _) as [[]|]; [|discriminate]. cbn [rbind] in H.
  rewrite stab_loop_run in H. destruct (run_stab _ _ _ _ _ _ _ _ _ _ _) as [ts|] eqn:Er; [|discriminate]. cbn [rbind] in H.
  destruct (choose [] None ts) as [[c b]|] eqn:Ec; cbn [rbind option_map] in H.
  - destruct (neqb c zero) eqn:Ez.
    + cbn [rbind] in H. injection H as <-. cbn [st_tested st_b st_mc]. rewrite Ec. cbn. repeat split; try discriminate. intros mc b0 E. injection E as <- <-. rewrite Ez. reflexivity.
    + destruct (bin_to_precision (Some [c]) delta) as [l|] eqn:El; [|discriminate]. cbn [rbind] in H. injection H as <-. cbn [st_tested st_b st_mc]. rewrite Ec. cbn. repeat split; try discriminate.
      intros mc b0 E. injection E as <- <-. rewrite Ez. exists l. auto.
  - injection H as <-. cbn [st_tested st_b st_mc]. rewrite Ec. cbn. repeat split; try discriminate.
Qed.

(** The magnitudes are tested in the given order, each with the result that the public
    functions give; with stop_when_passed up to the first stable one. *)
Theorem C45_tested : forall T (N : Num T) srt k kw draws w mags delta mcs_test stop range (r : stab_result T),
  estimate_mc_b_stability srt k kw draws w mags delta mcs_test stop range = Ok r ->
  exists ar mcs l1 l2, np_arange zero range (dec_val delta) = Ok ar /\ stab_mcs mags delta range (length ar) mcs_test = Ok mcs /\
    numbered mcs = l1 ++ l2 /\ mapM (stab_outcome srt k kw draws w mags delta range (length ar)) l1 = Ok (st_tested r) /\
    (stop = false -> l2 = []) /\
    (l2 <> [] -> exists r1 t, st_tested r = r1 ++ [t] /\ stable t = true) /\
    (stop = true -> forall r1 t t' r2, st_tested r = r1 ++ t :: t' :: r2 -> stable t = false).
Proof.
  intros T N srt k kw draws w mags delta mcs_test stop range r H. apply b_stability_ok in H. destruct H as (ar & mcs & Ea & Em & Er & _). exists ar, mcs.
  destruct stop.
  - apply run_stab_stop in Er. destruct Er as (l1 & l2 & E & Hm & Hc). exists l1, l2. split; [exact Ea|]. split; [exact Em|]. split; [exact E|]. split; [exact Hm|]. split; [discriminate|].
    destruct Hc as [[-> Hc]|(r1 & t & E1 & Hp & Hc)].
    + split; [congruence|]. intros _ r1 t t' r2 E2. apply Hc. rewrite E2. apply in_app_iff. right; left; reflexivity.
    + split; [intros _; eauto|]. intros _ r1' t1 t2 r2 E2. apply Hc. rewrite E1 in E2.
      destruct r2 as [|x r2 _] using rev_ind.
      * change (r1' ++ [t1; t2]) with (r1' ++ [t1] ++ [t2]) in E2. rewrite app_assoc in E2. apply app_inj_tail in E2. destruct E2 as [-> _]. apply in_app_iff. right; left; reflexivity.
      * change (r1' ++ t1 :: t2 :: r2 ++ [x]) with (r1' ++ (t1 :: t2 :: r2) ++ [x]) in E2. rewrite app_assoc in E2. apply app_inj_tail in E2. destruct E2 as [-> _]. apply in_app_iff. right; left; reflexivity.
  - rewrite run_stab_all in Er. exists (numbered mcs), []. rewrite app_nil_r. repeat split; auto; try congruence.
Qed.
Print Assumptions C45_tested.

(** *** the choice, in exact arithmetic *)
Definition num (x : xr) : Prop := x <> NaN.
Lemma num_isnan x : num x <-> nisnan x = false.
Proof. unfold num. destruct x; cbn; split; congruence. Qed.
Lemma xle_trans (x y z : xr) : nleb x y = true -> nleb y z = true -> nleb x z = true.
Proof. destruct x, y, z; cbn; try congruence. rewrite !rle_true. lra. Qed.
Lemma xlt_le (x y : xr) : num x -> num y -> nltb x y = negb (nleb y x).
Proof. unfold num. destruct x, y; cbn; try congruence. intros _ _. destruct (rlt r r0) eqn:A; [apply rlt_true in A; rewrite (proj2 (rle_false _ _)) by lra|apply rlt_false in A; rewrite (proj2 (rle_true _ _)) by lra]; reflexivity. Qed.
Lemma xle_refl (x : xr) : num x -> nleb x x = true.
Proof. unfold num. destruct x; cbn; try congruence. intros _. apply rle_true. lra. Qed.
Lemma xle_num (x y : xr) : nleb x y = true -> num x /\ num y.
Proof. unfold num. destruct x, y; cbn; split; congruence. Qed.
Lemma xle_total (x y : xr) : num x -> num y -> nleb x y = false -> nleb y x = true.
Proof. unfold num. destruct x, y; cbn; try congruence. rewrite rle_false, rle_true. lra. Qed.
Lemma xeq_le (x y : xr) : neqb x y = (nleb x y && nleb y x)%bool.
Proof. destruct x, y; cbn; try reflexivity. destruct (req r r0) eqn:A; [apply req_true in A; subst; rewrite (proj2 (rle_true _ _)) by lra; reflexivity|]. apply req_false in A.
  destruct (rle r r0) eqn:B, (rle r0 r) eqn:C; try reflexivity. apply rle_true in B, C. lra. Qed.
Lemma pymin_snoc x l y : pymin x (l ++ [y]) = if nltb y (pymin x l) then y else pymin x l.
Proof. unfold pymin. rewrite fold_left_app. reflexivity. Qed.
Lemma pymin_num x l : num x -> num (pymin x l).
Proof.
  intros Hx. induction l as [|y l IH] using rev_ind; [exact Hx|]. rewrite pymin_snoc. destruct (nltb y (pymin x l)) eqn:E; [|exact IH]. destruct y; cbn in *; try discriminate; unfold num; congruence.
Qed.
(** a new difference replaces the best one if it is at most 1 and at most the smallest so far *)
Lemma better_iff x l d : num x -> (nleb d one && neqb d (pymin_all ((x :: l) ++ [d])))%bool = (nleb d one && nleb d (pymin x l))%bool.
Proof.
  intros Hx. cbn [app pymin_all]. rewrite pymin_snoc. set (m := pymin x l). assert (Hm : num m) by (apply pymin_num; exact Hx).
  destruct (nleb d one) eqn:E; [|reflexivity]. cbn [andb]. apply xle_num in E. destruct E as [Hd _]. rewrite xlt_le by assumption. rewrite xeq_le.
  destruct (nleb m d) eqn:E1; cbn [negb]; [rewrite E1, andb_true_r; reflexivity|]. rewrite xle_refl by assumption. cbn [andb]. symmetry. apply xle_total; assumption.
Qed.
Definition diff (t : xr * (xr * xr)) : xr := snd (snd t).
Lemma choose_spec ts : forall x l best, num x ->
  let m := pymin x l in let r := choose (x :: l) best ts in
  (r = best /\ forall t, In t ts -> stable t = true -> nleb (diff t) m = false) \/
  (exists l1 t l2, ts = l1 ++ t :: l2 /\ r = Some (fst t, fst (snd t)) /\ stable t = true /\ nleb (diff t) m = true /\
     (forall t', In t' l1 -> nltb (diff t') (diff t) = false) /\ (forall t', In t' l2 -> nleb (diff t') (diff t) = false)).
Proof.
  induction ts as [|[mc [b d]] ts IH]; intros x l best Hx; cbv zeta; [left; split; [reflexivity|intros ? []]|].
  cbn [choose]. rewrite better_iff by exact Hx. set (best' := if (_ && _)%bool then _ else _).
  set (m := pymin x l). assert (Hm : num m) by (apply pymin_num; exact Hx).
  change ((x :: l) ++ [d]) with (x :: (l ++ [d])).
  destruct (IH x (l ++ [d]) best' Hx) as [[E H]|(l1 & t & l2 & -> & E & Hs & Hle & H1 & H2)].
  - rewrite E. rewrite pymin_snoc in H. fold m in H. unfold best'. fold m. destruct (nleb d one && nleb d m)%bool eqn:B.
    + apply andb_true_iff in B. destruct B as [B1 B2]. destruct (xle_num _ _ B1) as [Hd _]. right. exists [], (mc, (b, d)), ts. split; [reflexivity|]. split; [reflexivity|]. split; [exact B1|]. split; [exact B2|]. split; [intros ? []|].
      intros t' Ht'. unfold diff in *. cbn [snd]. destruct (nleb (snd (snd t')) d) eqn:K; [|reflexivity]. exfalso.
      assert (stable t' = true) by (unfold stable; eapply xle_trans; eassumption). specialize (H t' Ht' H0).
      rewrite xlt_le in H by assumption. destruct (nleb m d) eqn:M; cbn [negb] in H; [|congruence]. rewrite (xle_trans _ _ _ K B2) in H. discriminate.
    + left. split; [reflexivity|]. intros t [<-|Ht] Hst.
      * unfold stable, diff in *. cbn [snd] in *. rewrite Hst in B. exact B.
      * specialize (H t Ht Hst). destruct (nltb d m) eqn:L; [|exact H]. destruct (nleb (diff t) m) eqn:K; [|reflexivity]. exfalso.
        assert (Hd : num d) by (destruct d; cbn in L; try discriminate; unfold num; congruence).
        rewrite xlt_le in L by assumption. apply negb_true_iff in L. assert (D : nleb d m = true) by (apply xle_total; assumption). rewrite D, andb_true_r in B.
        (* d > 1, so diff t <= 1 <= d *)
        unfold stable in Hst. fold (diff t) in Hst. destruct (xle_num _ _ Hst) as [_ H1]. assert (nleb one d = true) by (apply xle_total; assumption). rewrite (xle_trans _ _ _ Hst H0) in H. discriminate.
  - right. exists ((mc, (b, d)) :: l1), t, l2. split; [reflexivity|]. split; [exact E|]. split; [exact Hs|]. rewrite pymin_snoc in Hle. fold m in Hle.
    assert (Hle' : nleb (diff t) m = true /\ nltb d (diff t) = false).
    { destruct (nltb d m) eqn:L.
      - assert (Hd : num d) by (destruct d; cbn in L; try discriminate; unfold num; congruence). rewrite xlt_le in L by assumption. apply negb_true_iff in L.
        split; [eapply xle_trans; [exact Hle|]; apply xle_total; assumption|]. rewrite xlt_le by (assumption || apply (xle_num _ _ Hle)). rewrite Hle. reflexivity.
      - split; [exact Hle|]. destruct (nisnan d) eqn:Nd; [destruct d; try discriminate; reflexivity|]. apply num_isnan in Nd. rewrite xlt_le in * by (assumption || apply (xle_num _ _ Hle)).
        apply negb_false_iff in L. apply negb_false_iff. eapply xle_trans; eassumption. }
    destruct Hle' as [A B]. split; [exact A|]. split; [|exact H2]. intros t' [<-|Ht']; [exact B|auto].
Qed.

(** With stop_when_passed: the first stable magnitude, its b-value; None exactly if no tested
    magnitude is stable. (The first difference must be a number, see C90; a best magnitude 0
    is reported as None, see C89.) *)
Theorem C45_first_stable : forall srt k kw draws w mags delta mcs_test range r t0 ts,
  estimate_mc_b_stability (T := xr) srt k kw draws w mags delta mcs_test true range = Ok r ->
  st_tested r = t0 :: ts -> diff t0 <> NaN ->
  match find stable (st_tested r) with
  | None => st_mc r = None /\ st_b r = None
  | Some (mc, (b, _)) => st_b r = Some b /\ (mc <> Fin 0 -> exists l, bin_to_precision (Some [mc]) delta = Ok l /\ st_mc r = hd_error l)
  end.
Proof.
  intros srt k kw draws w mags delta mcs_test range r t0 ts H Et Hn. apply b_stability_ok in H. destruct H as (ar & mcs & _ & _ & Er & Eb & Enone & Esome).
  apply run_stab_stop in Er. destruct Er as (u1 & u2 & _ & _ & Hc).
  assert (Z : forall mc, mc <> Fin 0 -> neqb mc zero = false).
  { intros mc Hz. destruct mc; try reflexivity. rewrite x_zero, x_eqb. apply req_false. congruence. }
  assert (K : choose [] None (st_tested r) = option_map (fun t => (fst t, fst (snd t))) (find stable (st_tested r))).
  { rewrite Et in *. destruct t0 as [mc0 [b0 d0]]. cbn [choose app pymin_all pymin fold_left]. unfold diff in Hn. cbn [snd] in Hn. rewrite xeq_le, xle_refl by exact Hn. rewrite andb_true_r. cbn [find]. unfold stable at 1. cbn [snd].
    destruct Hc as [[_ Hc]|(r1 & t & E1 & Hp & Hc)].
    - pose proof (Hc _ (or_introl eq_refl)) as H0. unfold stable in H0 at 1. cbn [snd] in H0. rewrite H0.
      destruct (choose_spec ts d0 [] None Hn) as [[-> _]|(l1 & t & l2 & -> & _ & Hs & _)].
      + destruct (find stable ts) as [t|] eqn:F; [|reflexivity]. apply find_some in F. rewrite (Hc t (or_intror (proj1 F))) in F. destruct F; discriminate.
      + rewrite (Hc t) in Hs by (right; apply in_app_iff; right; left; reflexivity). discriminate.
    - destruct r1 as [|t1 r1].
      + cbn [app] in E1. injection E1 as <- ->. unfold stable in Hp at 1. cbn [snd] in Hp. rewrite Hp. reflexivity.
      + cbn [app] in E1. injection E1 as <- ->. pose proof (Hc _ (or_introl eq_refl)) as H0. unfold stable in H0 at 1. cbn [snd] in H0. rewrite H0.
        assert (F : find stable (r1 ++ [t]) = Some t).
        { clear -Hc Hp. induction r1 as [|a r1 IH]; [cbn [app find]; rewrite Hp; reflexivity|]. cbn [app find]. rewrite (Hc a) by (right; left; reflexivity). apply IH. intros t0 [<-|H0]; apply Hc; [left; reflexivity|right; right; exact H0]. }
        rewrite F. destruct (choose_spec (r1 ++ [t]) d0 [] None Hn) as [[_ K]|(l1 & t' & l2 & E & -> & Hs & _)].
        * exfalso. specialize (K t ltac:(apply in_app_iff; right; left; reflexivity) Hp). cbn [pymin fold_left] in K. unfold stable in Hp. fold (diff t) in Hp. destruct (xle_num _ _ Hp) as [_ N1].
          assert (nleb one d0 = true) by (apply xle_total; assumption). rewrite (xle_trans _ _ _ Hp H) in K. discriminate.
        * assert (t' = t).
          { assert (I : In t' (r1 ++ [t])) by (rewrite E; apply in_app_iff; right; left; reflexivity). apply in_app_iff in I. destruct I as [I|[I|[]]]; [|auto]. rewrite (Hc t') in Hs by (right; exact I). discriminate. }
          subst t'. reflexivity. }
  rewrite K in *. rewrite Eb. destruct (find stable (st_tested r)) as [[mc [b d]]|]; cbn [option_map fst snd] in *.
  - split; [reflexivity|]. intros Hz. specialize (Esome mc b eq_refl). rewrite (Z mc Hz) in Esome. exact Esome.
  - split; [apply Enone; reflexivity|reflexivity].
Qed.
Print Assumptions C45_first_stable.
(** Without stop_when_passed: the last of the magnitudes with the smallest difference, if this
    difference is at most 1. *)
Theorem C45_most_stable : forall srt k kw draws w mags delta mcs_test range r t0 ts,
  estimate_mc_b_stability (T := xr) srt k kw draws w mags delta mcs_test false range = Ok r ->
  st_tested r = t0 :: ts -> diff t0 <> NaN ->
  (st_mc r = None /\ st_b r = None /\ forall t, In t (st_tested r) -> stable t = false) \/
  (exists l1 t l2, st_tested r = l1 ++ t :: l2 /\ stable t = true /\
     (forall t', In t' l1 -> nltb (diff t') (diff t) = false) /\ (forall t', In t' l2 -> nleb (diff t') (diff t) = false) /\
     st_b r = Some (fst (snd t)) /\ (fst t <> Fin 0 -> exists l, bin_to_precision (Some [fst t]) delta = Ok l /\ st_mc r = hd_error l)).
Proof.
  intros srt k kw draws w mags delta mcs_test range r t0 ts H Et Hn. apply b_stability_ok in H. destruct H as (ar & mcs & _ & _ & _ & Eb & Enone & Esome).
  assert (Z : forall mc, mc <> Fin 0 -> neqb mc zero = false).
  { intros mc Hz. destruct mc; try reflexivity. rewrite x_zero, x_eqb. apply req_false. congruence. }
  assert (K : (choose [] None (st_tested r) = None /\ forall t, In t (st_tested r) -> stable t = false) \/
    exists l1 t l2, st_tested r = l1 ++ t :: l2 /\ choose [] None (st_tested r) = Some (fst t, fst (snd t)) /\ stable t = true /\
     (forall t', In t' l1 -> nltb (diff t') (diff t) = false) /\ (forall t', In t' l2 -> nleb (diff t') (diff t) = false)).
  { rewrite Et. destruct t0 as [mc0 [b0 d0]]. cbn [choose app pymin_all pymin fold_left]. unfold diff in Hn. cbn [snd] in Hn. rewrite xeq_le, xle_refl by exact Hn. rewrite andb_true_r.
    destruct (choose_spec ts d0 [] (if nleb d0 one then Some (mc0, b0) else None) Hn) as [[-> Hx]|(l1 & t & l2 & -> & -> & Hs & Hle & H1 & H2)]; cbn [pymin fold_left] in *.
    - destruct (nleb d0 one) eqn:E0.
      + right. exists [], (mc0, (b0, d0)), ts. split; [reflexivity|]. split; [reflexivity|]. split; [exact E0|]. split; [intros ? []|]. intros t' Ht'. unfold diff at 2. cbn [snd].
        destruct (nleb (diff t') d0) eqn:K; [|reflexivity]. rewrite Hx in K; [discriminate|exact Ht'|]. unfold stable. eapply xle_trans; eassumption.
      + left. split; [reflexivity|]. intros t [<-|Ht]; [exact E0|]. destruct (stable t) eqn:S; [|reflexivity]. specialize (Hx t Ht S). unfold stable in S. fold (diff t) in S. destruct (xle_num _ _ S) as [_ N1].
        assert (nleb one d0 = true) by (apply xle_total; assumption). rewrite (xle_trans _ _ _ S H) in Hx. discriminate.
    - right. exists ((mc0, (b0, d0)) :: l1), t, l2. split; [reflexivity|]. split; [reflexivity|]. split; [exact Hs|]. split; [|exact H2].
      intros t' [<-|Ht']; [|auto]. unfold diff at 1. cbn [snd]. rewrite xlt_le by (exact Hn || apply (xle_num _ _ Hle)). rewrite Hle. reflexivity. }
  destruct K as [[K Hall]|(l1 & t & l2 & E & K & Hs & H1 & H2)].
  - left. rewrite Eb, K. repeat split; auto.
  - right. exists l1, t, l2. repeat (split; [assumption|]). rewrite Eb, K. split; [reflexivity|]. intros Hz. specialize (Esome _ _ K). rewrite (Z _ Hz) in Esome. exact Esome.
Qed.
Print Assumptions C45_most_stable.
