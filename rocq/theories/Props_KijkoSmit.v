(** * C68, C69, C107-C109, C111: Kijko and Smit's estimator for unequal completeness periods *)
From Coq Require Import Reals Lra List Lia ZArith Sorted Permutation Bool String.
From Verif Require Import Base Num XR RList SortLib BValue_model Spec_BValue Likelihood Periods_model Spec_Periods Weichert_real Periods_proofs.
Import ListNotations.
Open Scope R_scope.

(** the call on finite data *)
Definition kijko_smit (ev tb : list (R * R)) (given : option R) (d : R) (par : string) : res (ks_out xr) :=
  estimate_b_kijko_smit (map Fin (map fst ev)) (map Fin (map snd ev)) (map emb tb) (option_map Fin given) (Fin d) par.

Lemma log10pos : 0 < ln 10.
Proof. rewrite <- ln_1. apply ln_increasing; lra. Qed.
Lemma denominator_value tb ly beta c0 : ks_denominator (map emb tb) (Fin ly) (Fin beta) (Fin c0)
  = Fin (Rsum (map (fun r => (ly - snd r) * exp (- beta * (fst r - c0))) tb)).
Proof.
  unfold ks_denominator. enough (G : forall a, fold_left (fun acc r => (acc + (Fin ly - snd r) * nexp (nopp (Fin beta) * (fst r - Fin c0)))%num) (map emb tb) (Fin a)
    = Fin (a + Rsum (map (fun r => (ly - snd r) * exp (- beta * (fst r - c0))) tb))).
  { rewrite x_zero, G. apply f_equal. ring. }
  induction tb as [|r tb IH]; intros a; cbn [map fold_left emb fst snd].
  - unfold Rsum. cbn. apply f_equal. ring.
  - rewrite !x_sub, x_opp, x_mul, x_exp, x_mul, x_add, IH, Rsum_cons. apply f_equal. ring.
Qed.
Lemma ks_core ev tb given d ly : ev <> [] -> tb <> [] -> rising_mags tb -> falling_years tb -> 0 < d ->
  every_period_has_events tb ev -> the_last_year (option_map Fin given) (map Fin (map snd ev)) = ly ->
  let n := List.length (used tb ev) in let beta := INR n / total_excess tb ev in
  let rate := ndiv (Fin (INR n)) (ks_denominator (map emb tb) ly (Fin beta) (Fin (lowest tb))) in
  kijko_smit ev tb given d "b_value" =
    Ok (mkks (Fin (beta / ln 10)) (Fin (beta / sqrt (INR n) / ln 10)) rate
         (nadd (nlog10 rate) (Fin (beta / ln 10 * (lowest tb + d / 2)))))
  /\ 0 < total_excess tb ev /\ 0 < INR n.
Proof.
  intros He Ht Hr Hf Hd Hev Hly n beta rate. destruct (ks_beta_value tb ev Hf Ht Hev) as (Hb & HS & HN).
  split; [|split; assumption]. unfold kijko_smit, estimate_b_kijko_smit. rewrite checks_ok by auto. cbn [rbind].
  rewrite Hly, zip_emb, ncomplete_used by exact Hf. rewrite Hb. cbn [rbind]. fold n. fold beta. rewrite x_ofnat.
  assert (E0 : match map emb tb with [] => nnan | r :: _ => fst r end = Fin (lowest tb)) by (destruct tb; [congruence|reflexivity]).
  rewrite E0. fold rate. change (String.eqb "b_value" "b_value") with true. cbv iota. unfold beta_to_b_value. fold n in HN.
  pose proof log10pos as H10. rewrite x_sqrt by lra. pose proof (sqrt_lt_R0 _ HN) as Hs.
  rewrite x_ofZ. rewrite x_ln by lra. rewrite (x_div beta (sqrt (INR n))) by lra. rewrite !x_div by lra. rewrite x_lit.
  replace (10 ^ Z.of_nat 1)%Z with 10%Z by reflexivity. rewrite !x_mul, x_add, x_mul.
  replace (lowest tb + d * (5 / 10)) with (lowest tb + d / 2) by field. reflexivity.
Qed.

Lemma pooled_exp tb ev b : 0 < b -> pooled_likelihood tb ev b = exp (INR (List.length (used tb ev)) * ln b - b * total_excess tb ev).
Proof.
  intros Hb. unfold pooled_likelihood. rewrite Rprod_exp by (intros; apply Rmult_lt_0_compat; [exact Hb|apply exp_pos]).
  f_equal. transitivity (Rsum (map (fun p => ln b + - b * excess_mag p) (used tb ev))).
  - apply Rsum_map_ext. intros p _. rewrite ln_mult by (auto using exp_pos). rewrite ln_exp. reflexivity.
  - rewrite Rsum_map_plus, Rsum_map_const, Rsum_map_scal. unfold total_excess. ring.
Qed.
Lemma pooled_max tb ev : 0 < total_excess tb ev -> 0 < INR (List.length (used tb ev)) ->
  unique_positive_maximiser (pooled_likelihood tb ev) (INR (List.length (used tb ev)) / total_excess tb ev).
Proof.
  intros HS HN. set (n := INR (List.length (used tb ev))) in *.
  replace (n / total_excess tb ev) with (1 / (total_excess tb ev / n)) by (field; lra).
  apply (maximiser_exp_ext _ (fun b => n * (ln b - b * (total_excess tb ev / n)))).
  - intros b Hb. rewrite pooled_exp by exact Hb. f_equal. fold n. field. lra.
  - apply max_exp; [exact HN|]. apply Rdiv_lt_0_compat; assumption.
Qed.

(** C68: every event is used at most once (for the period of its year, if it is larger than that
    period's magnitude); the estimate maximises the pooled likelihood: n over the total excess. *)
Theorem C68_kijko_smit ev tb given d : ev <> [] -> tb <> [] -> rising_mags tb -> falling_years tb -> 0 < d ->
  every_period_has_events tb ev ->
  exists o beta, kijko_smit ev tb given d "b_value" = Ok o
    /\ ks_b o = Fin (beta / ln 10)
    /\ unique_positive_maximiser (pooled_likelihood tb ev) beta
    /\ beta = INR (List.length (used tb ev)) / Rsum (map excess_mag (used tb ev)).
Proof.
  intros He Ht Hr Hf Hd Hev. destruct (ks_core ev tb given d _ He Ht Hr Hf Hd Hev eq_refl) as (E & HS & HN).
  eexists. exists (INR (List.length (used tb ev)) / total_excess tb ev). split; [exact E|]. split; [reflexivity|]. split; [|reflexivity].
  apply pooled_max; assumption.
Qed.
(** and without any complete event the call fails *)
Theorem C68_no_complete_events ev tb given d par : ev <> [] -> tb <> [] -> rising_mags tb -> falling_years tb -> 0 < d ->
  par = "b_value"%string \/ par = "beta"%string -> used tb ev = [] -> kijko_smit ev tb given d par = Err ZeroDivisionError.
Proof.
  intros He Ht Hr Hf Hd Hp Hu. unfold kijko_smit, estimate_b_kijko_smit. rewrite checks_ok by auto. cbn [rbind].
  rewrite zip_emb, ncomplete_used by exact Hf. rewrite Hu. reflexivity.
Qed.
(** the standard error is the inverse square root of the observed information *)
Theorem C103_kijko_smit_std ev tb given d : ev <> [] -> tb <> [] -> rising_mags tb -> falling_years tb -> 0 < d ->
  every_period_has_events tb ev ->
  exists o beta d1 d2, kijko_smit ev tb given d "b_value" = Ok o /\ ks_b o = Fin (beta / ln 10)
    /\ (forall b, 0 < b -> derivable_pt_lim (fun b => ln (pooled_likelihood tb ev b)) b (d1 b))
    /\ derivable_pt_lim d1 beta d2 /\ d2 < 0 /\ ks_std o = Fin (sqrt (-1 / d2) / ln 10).
Proof.
  intros He Ht Hr Hf Hd Hev. destruct (ks_core ev tb given d _ He Ht Hr Hf Hd Hev eq_refl) as (E & HS & HN).
  set (n := INR (List.length (used tb ev))) in *. set (S := total_excess tb ev) in *. set (beta := n / S) in *.
  assert (Hb : 0 < beta) by (apply Rdiv_lt_0_compat; assumption).
  eexists. exists beta, (fun b => n * / b - S), (- (n / (beta * beta))). split; [exact E|]. split; [reflexivity|].
  assert (Hq : 0 < n / (beta * beta)) by (apply Rdiv_lt_0_compat; [exact HN|apply Rmult_lt_0_compat; exact Hb]).
  split; [|split; [|split; [lra|]]].
  - intros b Hb'. intros eps He'.
    assert (D : derivable_pt_lim (fun b => n * ln b - b * S) b (n * / b - S)).
    { apply (derivable_pt_lim_minus (fun b => n * ln b) (fun b => b * S)).
      - apply (derivable_pt_lim_scal ln). apply derivable_pt_lim_ln. exact Hb'.
      - apply derivable_pt_lim_ext with (f := fun y => S * y); [intros; ring|].
        pose proof (derivable_pt_lim_scal (fun y => y) S b 1 (derivable_pt_lim_id b)) as D'. rewrite Rmult_1_r in D'. exact D'. }
    destruct (D eps He') as (del & Hdel).
    assert (Hm : 0 < Rmin del b) by (apply Rmin_pos; [apply cond_pos|exact Hb']).
    exists (mkposreal _ Hm). cbn [pos]. intros h Hh Hlt.
    assert (L1 : Rabs h < del) by (eapply Rlt_le_trans; [exact Hlt|apply Rmin_l]).
    assert (L2 : Rabs h < b) by (eapply Rlt_le_trans; [exact Hlt|apply Rmin_r]).
    assert (0 < b + h) by (pose proof (Rle_abs (- h)); rewrite Rabs_Ropp in *; lra).
    rewrite !pooled_exp by assumption. rewrite !ln_exp. apply Hdel; assumption.
  - replace (- (n / (beta * beta))) with (n * (- / (beta * beta)) - 0) by (field; lra).
    apply (derivable_pt_lim_minus (fun b => n * / b) (fun _ => S)); [|apply (derivable_pt_lim_const S)].
    apply (derivable_pt_lim_scal (fun b => / b)).
    replace (- / (beta * beta)) with ((0 * beta - 1 * 1) / Rsqr beta) by (unfold Rsqr; field; lra).
    apply derivable_pt_lim_ext with (f := fun b => (fun _ => 1) b / (fun y => y) b); [intros; unfold Rdiv; ring|].
    apply (derivable_pt_lim_div (fun _ => 1) (fun y => y)); [apply (derivable_pt_lim_const 1)|apply derivable_pt_lim_id|lra].
  - cbn [ks_std]. apply f_equal. f_equal. fold n. fold S. fold beta.
    replace (-1 / - (n / (beta * beta))) with (beta * beta / n) by (field; lra).
    rewrite sqrt_div_alt by exact HN. rewrite sqrt_square by lra. reflexivity.
Qed.

(** C69: b_parameter = 'beta' never works: whenever 'b_value' gives a result, 'beta' raises. *)
Theorem C69_kijko_smit_beta_refuted {T} {N : Num T} mags years table ly d o :
  estimate_b_kijko_smit mags years table ly d "b_value" = Ok o ->
  @estimate_b_kijko_smit T N mags years table ly d "beta" = Err UnboundLocalError.
Proof.
  unfold estimate_b_kijko_smit. intros H. destruct (period_checks mags years table d "b_value") as [[]|] eqn:E; [|discriminate].
  assert (E2 : period_checks mags years table d "beta" = Ok tt).
  { revert E. unfold period_checks, rbind, assert_. destruct (_ =? _)%nat; [|discriminate]. destruct (ascending _); [|discriminate].
    destruct mags; [discriminate|]. destruct table; [discriminate|]. destruct (nltb zero d); [reflexivity|discriminate]. }
  rewrite E2. cbn [rbind] in *. destruct (ks_beta _ _ _); [|discriminate]. reflexivity.
Qed.

(** C107: one period without complete events makes every output NaN, whatever the other periods hold *)
Lemma xsum_nan l : In NaN l -> nsum l = NaN.
Proof.
  change (In NaN l -> fold_right xadd (Fin 0) l = NaN). induction l as [|x l IH]; [intros []|]. cbn [fold_right]. intros [->|H]; [reflexivity|].
  rewrite (IH H). destruct x; reflexivity.
Qed.
Lemma xdiv_nan x : ndiv x NaN = NaN.
Proof. destruct x; reflexivity. Qed.
Theorem C107_empty_period_refuted ev tb given d r : ev <> [] -> rising_mags tb -> falling_years tb -> 0 < d ->
  In r tb -> (forall e, ~ In (e, r) (used tb ev)) -> used tb ev <> [] ->
  kijko_smit ev tb given d "b_value" = Ok (mkks NaN NaN NaN NaN).
Proof.
  intros He Hr Hf Hd Hin Hno Hu. assert (Ht : tb <> []) by (intros ->; destruct Hin).
  unfold kijko_smit, estimate_b_kijko_smit. rewrite checks_ok by auto. cbn [rbind]. rewrite zip_emb, ncomplete_used by exact Hf.
  assert (Eb : ks_beta (map emb tb) (sub_catalogues (map emb tb) (map emb ev)) (List.length (used tb ev)) = Ok NaN).
  { unfold ks_beta. replace (List.length (used tb ev) =? 0)%nat with false by (symmetry; apply Nat.eqb_neq; destruct (used tb ev); [congruence|discriminate]).
    apply f_equal. rewrite sub_catalogues_emb, map2_irows. rewrite xsum_nan; [apply xdiv_nan|].
    assert (Hir : exists ir, In ir (irows tb) /\ snd ir = r).
    { unfold irows. generalize 0%nat. clear - Hin. induction tb as [|r' tb IH]; intros k; [destruct Hin|]. cbn [List.length seq zip].
      destruct Hin as [->|Hin]; [exists (k, r); split; [left|]; reflexivity|].
      destruct (IH Hin (S k)) as (ir & H1 & H2). exists ir. split; [right; exact H1|exact H2]. }
    destruct Hir as (ir & Hir & Er). apply in_map_iff. exists ir. split; [|exact Hir].
    assert (Es : subR tb ev ir = []).
    { destruct (subR tb ev ir) as [|e s] eqn:Es; [reflexivity|exfalso]. apply (Hno e). rewrite <- Er. apply (sub_iff tb ev ir e Hf Hir). rewrite Es. left; reflexivity. }
    rewrite Es. change (mags_of []) with (@nil xr). rewrite x_mean_nil. change (nsub NaN (fst (emb (snd ir)))) with NaN.
    rewrite !xdiv_nan. reflexivity. }
  rewrite Eb. cbn [rbind].
  set (ly := the_last_year _ _). set (c0 := match map emb tb with [] => _ | _ => _ end).
  assert (Ed : ks_denominator (map emb tb) ly NaN c0 = NaN).
  { unfold ks_denominator. destruct tb as [|r0 tb']; [congruence|]. cbn [map fold_left].
    assert (E1 : forall a r, nadd a (nmul (nsub ly (snd (emb r))) (nexp (nmul (nopp NaN) (nsub (fst (emb r)) c0)))) = NaN).
    { intros a r'. change (nexp (nmul (nopp NaN) (nsub (fst (emb r')) c0))) with NaN.
      destruct (nsub ly (snd (emb r'))); destruct a; reflexivity. }
    rewrite E1. generalize tb'. intros l. clear -E1. induction l as [|r l IH]; [reflexivity|]. cbn [map fold_left]. rewrite E1. exact IH. }
  rewrite Ed, xdiv_nan. reflexivity.
Qed.

(** ** the rate *)
Lemma rate_value ev tb given d ly : ev <> [] -> tb <> [] -> rising_mags tb -> falling_years tb -> 0 < d ->
  every_period_has_events tb ev -> last_year_is given (map snd ev) ly -> (forall r, In r tb -> snd r < ly) ->
  let n := INR (List.length (used tb ev)) in let beta := n / total_excess tb ev in
  let D := Rsum (map (fun r => (ly - snd r) * exp (- beta * (fst r - lowest tb))) tb) in
  0 < D /\ 0 < n /\ exists o, kijko_smit ev tb given d "b_value" = Ok o /\ ks_b o = Fin (beta / ln 10) /\ ks_rate o = Fin (n / D)
    /\ ks_a o = Fin (ln (n / D) / ln 10 + beta / ln 10 * (lowest tb + d / 2)).
Proof.
  intros He Ht Hr Hf Hd Hev Hly Hlt n beta D. destruct (ks_core ev tb given d _ He Ht Hr Hf Hd Hev eq_refl) as (E & HS & HN).
  rewrite (last_year_ok given ev ly Hly) in E. rewrite denominator_value in E. fold n beta in E. fold D in E.
  assert (HD : 0 < D).
  { apply Rsum_pos_nonempty; [destruct tb; [congruence|discriminate]|]. intros x Hx. apply in_map_iff in Hx. destruct Hx as (r & <- & Hi).
    apply Rmult_lt_0_compat; [|apply exp_pos]. apply Hlt in Hi. lra. }
  split; [exact HD|]. split; [exact HN|]. eexists. split; [exact E|]. cbn [ks_b ks_rate ks_a]. split; [reflexivity|].
  fold n in HN. rewrite x_div by lra. split; [reflexivity|]. rewrite x_log10 by (apply Rdiv_lt_0_compat; assumption). reflexivity.
Qed.
Lemma spans_pos tb ly : falling_years tb -> (forall r, In r tb -> snd r < ly) -> forall sr, In sr (with_span ly tb) -> 0 < fst sr.
Proof.
  intros H. revert ly. induction H as [|r tb H IH F]; intros ly Hlt sr Hi; [destruct Hi|]. cbn [with_span] in Hi. rewrite Forall_forall in F.
  destruct Hi as [<-|Hi]; [cbn [fst]; specialize (Hlt r (or_introl eq_refl)); lra|]. apply (IH (snd r)); [exact F|exact Hi].
Qed.
Lemma map_snd_span ly tb : map snd (with_span ly tb) = tb.
Proof. revert ly. induction tb as [|r tb IH]; intros ly; [reflexivity|]. cbn [with_span map snd]. rewrite IH. reflexivity. Qed.
Lemma spans_smaller tb ly g : falling_years tb -> (forall r, In r tb -> snd r < ly) -> (forall r, In r tb -> 0 < g r) ->
  (2 <= List.length tb)%nat ->
  Rsum (map (fun sr => fst sr * g (snd sr)) (with_span ly tb)) < Rsum (map (fun r => (ly - snd r) * g r) tb).
Proof.
  intros Hf Hlt Hg Hl.
  assert (G : forall tb ly', falling_years tb -> (forall r, In r tb -> snd r < ly') -> ly' <= ly -> (forall r, In r tb -> 0 < g r) ->
    Rsum (map (fun sr => fst sr * g (snd sr)) (with_span ly' tb)) <= Rsum (map (fun r => (ly - snd r) * g r) tb)
    /\ (tb <> [] -> ly' < ly -> Rsum (map (fun sr => fst sr * g (snd sr)) (with_span ly' tb)) < Rsum (map (fun r => (ly - snd r) * g r) tb))).
  { clear. induction tb as [|r tb IH]; intros ly' Hf Hlt Hle Hg; [split; [apply Rle_refl|congruence]|].
    inversion_clear Hf as [|? ? Hf' F]. rewrite Forall_forall in F. cbn [with_span map]. rewrite !Rsum_cons. cbn [fst snd].
    destruct (IH (snd r) Hf' F) as [IH1 _]; [specialize (Hlt r (or_introl eq_refl)); lra|intros; apply Hg; right; assumption|].
    pose proof (Hg r (or_introl eq_refl)) as Hgr.
    assert ((ly' - snd r) * g r <= (ly - snd r) * g r) by (apply Rmult_le_compat_r; lra).
    split; [lra|]. intros _ Hs. assert ((ly' - snd r) * g r < (ly - snd r) * g r) by (apply Rmult_lt_compat_r; lra). lra. }
  destruct tb as [|r [|r' tb]]; [cbn in Hl; lia|cbn in Hl; lia|]. inversion_clear Hf as [|? ? Hf' F]. rewrite Forall_forall in F.
  cbn [with_span map]. cbn [map with_span] in *. rewrite (Rsum_cons _ (map _ (with_span (snd r) (r' :: tb)))) || idtac.
  change (Rsum (map (fun sr => fst sr * g (snd sr)) ((ly - snd r, r) :: with_span (snd r) (r' :: tb))) < Rsum (map (fun r => (ly - snd r) * g r) (r :: r' :: tb))).
  cbn [map]. rewrite !(Rsum_cons ((ly - snd r) * g r)). cbn [fst snd]. apply Rplus_lt_compat_l.
  apply (G (r' :: tb) (snd r)); [exact Hf'|exact F|specialize (Hlt r (or_introl eq_refl)); lra|intros; apply Hg; right; assumption|discriminate|].
  apply Hlt; left; reflexivity.
Qed.
(** the Poisson likelihood is a constant times lambda^n exp(-lambda E) *)
Lemma rate_likelihood_form tb ev ly beta m0 : (forall sr, In sr (with_span ly tb) -> 0 < fst sr) ->
  exists C, 0 < C /\ forall lambda, 0 < lambda -> rate_likelihood tb ev ly beta m0 lambda =
    C * exp (Rsum (map (fun r => INR (count_of tb ev r)) tb) * ln lambda - lambda * Rsum (map (fun sr => fst sr * exp (- beta * (fst (snd sr) - m0))) (with_span ly tb))).
Proof.
  intros Hp. unfold rate_likelihood.
  assert (Em : map (fun r => INR (count_of tb ev r)) tb = map (fun sr => INR (count_of tb ev (snd sr))) (with_span ly tb))
    by (rewrite <- (map_map snd (fun r => INR (count_of tb ev r))), map_snd_span; reflexivity).
  rewrite Em. clear Em.
  set (l := with_span ly tb) in *. clearbody l. clear ly. generalize (count_of tb ev). intros c. clear tb ev. 
  induction l as [|sr l IH].
  - exists 1. split; [lra|]. intros lambda _. unfold Rprod, Rsum. cbn. replace (0 * ln lambda - lambda * 0) with 0 by ring. rewrite exp_0. ring.
  - destruct IH as (C & HC & IH); [intros; apply Hp; right; assumption|].
    set (q := fst sr * exp (- beta * (fst (snd sr) - m0))).
    assert (Hq : 0 < q) by (apply Rmult_lt_0_compat; [apply Hp; left; reflexivity|apply exp_pos]).
    exists (C * (q ^ c (snd sr) / INR (fact (c (snd sr))))). split.
    + apply Rmult_lt_0_compat; [exact HC|]. apply Rdiv_lt_0_compat; [apply pow_lt; exact Hq|]. apply lt_0_INR. apply lt_O_fact.
    + intros lambda Hl. cbn [map]. rewrite !Rsum_cons. unfold Rprod in *. cbn [fold_right]. rewrite (IH lambda Hl).
      fold q. unfold expected, poisson. fold q. rewrite Rpow_mult_distr.
      assert (Epow : lambda ^ c (snd sr) = exp (INR (c (snd sr)) * ln lambda)).
      { rewrite <- (Rpower_pow (c (snd sr)) lambda Hl). reflexivity. }
      rewrite Epow.
      match goal with |- _ = _ * exp ((?a + ?b) * ?c - ?d * (?e + ?f)) => replace ((a + b) * c - d * (e + f)) with (- (d * e) + (a * c + (b * c - d * f))) by ring end.
      rewrite !exp_plus. field. apply INR_fact_neq_0.
Qed.
Lemma sum_counts tb ev : falling_years tb -> Rsum (map (fun r => INR (count_of tb ev r)) tb) = INR (List.length (used tb ev)).
Proof.
  intros Hf.
  assert (Hin : forall p, In p (used tb ev) -> In (snd p) tb).
  { intros p H. unfold used in H. apply in_flat_map in H. destruct H as (e & _ & H). unfold used_of in H.
    destruct (period_of tb (snd e)) as [r|] eqn:E; [|destruct H]. destruct (Rlt_dec _ _); [|destruct H]. destruct H as [<-|[]]. cbn [snd].
    rewrite <- nth_period in E by exact Hf. apply nth_error_In in E. exact E. }
  unfold count_of. generalize dependent (used tb ev). intros l Hin.
  assert (Hone : forall r, In r tb -> Rsum (map (fun r' => if row_eqb r r' then 1 else 0) tb) = 1).
  { clear - Hf. intros r. induction Hf as [|r0 tb H IH F]; [intros []|]. rewrite Forall_forall in F. cbn [map]. rewrite Rsum_cons. intros [->|Hi].
    - replace (row_eqb r r) with true by (unfold row_eqb; repeat destruct (Req_EM_T _ _); congruence).
      replace (Rsum _) with 0; [lra|]. symmetry. transitivity (Rsum (map (fun _ : R * R => 0) tb)); [|rewrite Rsum_map_const; ring].
      apply Rsum_map_ext. intros r' Hr'. apply F in Hr'. unfold row_eqb. repeat destruct (Req_EM_T _ _); lra.
    - rewrite IH by exact Hi. apply F in Hi. replace (row_eqb r r0) with false; [lra|]. unfold row_eqb. repeat destruct (Req_EM_T _ _); try reflexivity; lra. }
  induction l as [|p l IH].
  - cbn [filter List.length]. change (INR 0) with 0. rewrite Rsum_map_const. ring.
  - transitivity (Rsum (map (fun r => (if row_eqb (snd p) r then 1 else 0) + INR (List.length (filter (fun p => row_eqb (snd p) r) l))) tb)).
    + apply Rsum_map_ext. intros r _. cbn [filter]. destruct (row_eqb (snd p) r); cbn [List.length]; [rewrite S_INR; lra|lra].
    + rewrite Rsum_map_plus, IH by (intros; apply Hin; right; assumption). rewrite Hone by (apply Hin; left; reflexivity).
      cbn [List.length]. rewrite S_INR. lra.
Qed.

(** C108: the returned rate is too low: for every table with at least two rows, the rate that
    maximises the Poisson likelihood of the observed numbers is strictly larger. *)
Theorem C108_rate_refuted ev tb given d ly : ev <> [] -> rising_mags tb -> falling_years tb -> 0 < d ->
  every_period_has_events tb ev -> last_year_is given (map snd ev) ly -> (forall r, In r tb -> snd r < ly) ->
  (2 <= List.length tb)%nat ->
  exists o beta rate best, kijko_smit ev tb given d "b_value" = Ok o /\ ks_b o = Fin (beta / ln 10) /\ ks_rate o = Fin rate
    /\ unique_positive_maximiser (rate_likelihood tb ev ly beta (lowest tb)) best /\ rate < best.
Proof.
  intros He Hr Hf Hd Hev Hly Hlt H2. assert (Ht : tb <> []) by (intros ->; cbn in H2; lia).
  destruct (rate_value ev tb given d ly He Ht Hr Hf Hd Hev Hly Hlt) as (HD & HN & o & E & Eb & Er & _).
  set (n := INR (List.length (used tb ev))) in *. set (beta := n / total_excess tb ev) in *. set (m0 := lowest tb) in *.
  set (g := fun r : R * R => exp (- beta * (fst r - m0))).
  pose proof (spans_smaller tb ly g Hf Hlt (fun r _ => exp_pos _) H2) as HE. pose proof (spans_pos tb ly Hf Hlt) as Hsp.
  set (Ex := Rsum (map (fun sr => fst sr * g (snd sr)) (with_span ly tb))) in *.
  set (D := Rsum (map (fun r => (ly - snd r) * g r) tb)) in *. change (Rsum _) with D in HD at 1. change (Rsum _) with D in Er at 1.
  assert (HEx : 0 < Ex).
  { apply Rsum_pos_nonempty; [destruct tb; [congruence|discriminate]|]. intros x Hx. apply in_map_iff in Hx. destruct Hx as (sr & <- & Hi).
    apply Rmult_lt_0_compat; [apply Hsp; exact Hi|apply exp_pos]. }
  exists o, beta, (n / D), (n / Ex). split; [exact E|]. split; [exact Eb|]. split; [exact Er|]. split.
  - destruct (rate_likelihood_form tb ev ly beta m0 Hsp) as (C & HC & Eform). rewrite sum_counts in Eform by exact Hf. fold n in Eform. change (Rsum _) with Ex in Eform.
    pose proof (max_exp n (Ex / n) HN (Rdiv_lt_0_compat _ _ HEx HN)) as [P M]. replace (1 / (Ex / n)) with (n / Ex) in * by (field; lra).
    split; [exact P|]. intros y Hy Ny. rewrite !Eform by assumption. apply Rmult_lt_compat_l; [exact HC|]. apply exp_increasing.
    specialize (M y Hy Ny).
    replace (n * ln y - y * Ex) with (n * (ln y - y * (Ex / n))) by (field; lra).
    replace (n * ln (n / Ex) - n / Ex * Ex) with (n * (ln (n / Ex) - n / Ex * (Ex / n))) by (field; lra). exact M.
  - unfold Rdiv. apply Rmult_lt_compat_l; [exact HN|]. apply Rinv_lt_contravar; [apply Rmult_lt_0_compat|]; assumption.
Qed.
(** C109: 10^a is not the rate of events above magnitude 0 that belongs to the returned rate and b-value:
    it is larger by the factor 10^(b * delta_m / 2) *)
Theorem C109_a_value_refuted ev tb given d ly : ev <> [] -> tb <> [] -> rising_mags tb -> falling_years tb -> 0 < d ->
  every_period_has_events tb ev -> last_year_is given (map snd ev) ly -> (forall r, In r tb -> snd r < ly) ->
  exists o b rate a, kijko_smit ev tb given d "b_value" = Ok o /\ ks_b o = Fin b /\ ks_rate o = Fin rate /\ ks_a o = Fin a
    /\ Rpower 10 a = rate * Rpower 10 (b * lowest tb) * Rpower 10 (b * (d / 2))
    /\ rate * Rpower 10 (b * lowest tb) < Rpower 10 a.
Proof.
  intros He Ht Hr Hf Hd Hev Hly Hlt.
  destruct (rate_value ev tb given d ly He Ht Hr Hf Hd Hev Hly Hlt) as (HD & HN & o & E & Eb & Er & Ea).
  destruct (ks_beta_value tb ev Hf Ht Hev) as (_ & HS & _).
  set (n := INR (List.length (used tb ev))) in *. set (beta := n / total_excess tb ev) in *.
  set (D := Rsum _) in HD, Er, Ea at 1. pose proof log10pos as H10.
  assert (Hb : 0 < beta) by (apply Rdiv_lt_0_compat; assumption). assert (Hb' : 0 < beta / ln 10) by (apply Rdiv_lt_0_compat; assumption).
  assert (Hrate : 0 < n / D) by (apply Rdiv_lt_0_compat; assumption).
  exists o, (beta / ln 10), (n / D), (ln (n / D) / ln 10 + beta / ln 10 * (lowest tb + d / 2)).
  split; [exact E|]. split; [exact Eb|]. split; [exact Er|]. split; [exact Ea|].
  assert (EP : Rpower 10 (ln (n / D) / ln 10 + beta / ln 10 * (lowest tb + d / 2)) = n / D * Rpower 10 (beta / ln 10 * lowest tb) * Rpower 10 (beta / ln 10 * (d / 2))).
  { rewrite Rmult_plus_distr_l, !Rpower_plus, <- Rmult_assoc. do 2 f_equal. unfold Rpower. replace (ln (n / D) / ln 10 * ln 10) with (ln (n / D)) by (field; lra). apply exp_ln. exact Hrate. }
  split; [exact EP|]. rewrite EP. rewrite <- (Rmult_1_r (n / D * _)) at 1. apply Rmult_lt_compat_l.
  - apply Rmult_lt_0_compat; [exact Hrate|apply exp_pos].
  - rewrite <- (Rpower_O 10) by lra. apply Rpower_lt; [lra|]. apply Rmult_lt_0_compat; lra.
Qed.
(** C111: catalogues that are not aligned with the bins are accepted *)
Definition aligned (c0 d : R) (ms : list R) : Prop := forall m, In m ms -> exists k : nat, m - d = c0 + INR k * d.
Theorem C111_alignment_refuted tb given d ev : ev <> [] -> tb <> [] -> rising_mags tb -> falling_years tb -> 0 < d ->
  every_period_has_events tb ev ->
  exists ev' o, ~ aligned (lowest tb) d (map fst ev') /\ kijko_smit ev' tb given d "b_value" = Ok o.
Proof.
  intros He Ht Hr Hf Hd Hev. exists ((lowest tb - 1, 0) :: ev).
  assert (Hsub : forall p, In p (used tb ev) -> In p (used tb ((lowest tb - 1, 0) :: ev))) by (intros p Hp; unfold used; cbn [flat_map]; apply in_or_app; right; exact Hp).
  destruct (C68_kijko_smit ((lowest tb - 1, 0) :: ev) tb given d) as (o & _ & E & _); auto; [discriminate| |].
  - intros r Hi. destruct (Hev r Hi) as (e & H). exists e. apply Hsub. exact H.
  - exists o. split; [|exact E]. intros Ha. destruct (Ha (lowest tb - 1)) as (k & Ek); [left; reflexivity|].
    pose proof (pos_INR k). assert (0 <= INR k * d) by (apply Rmult_le_pos; lra). lra.
Qed.

(** ** the hypotheses are met *)
Definition ex_tb : list (R * R) := [(4, 1980); (5, 1920)].
Definition ex_ev : list (R * R) := [(9/2, 1990); (6, 1930); (3, 1985); (9/2, 1930)].
Lemma ex_used : used ex_tb ex_ev = [((9/2, 1990), (4, 1980)); ((6, 1930), (5, 1920))].
Proof.
  unfold used, ex_ev, ex_tb. cbn [flat_map]. unfold used_of. cbn [period_of fst snd].
  repeat (match goal with |- context [Rle_dec ?a ?b] => destruct (Rle_dec a b); [try (exfalso; lra)|try (exfalso; lra)] end; cbn [fst snd]).
  repeat (match goal with |- context [Rlt_dec ?a ?b] => destruct (Rlt_dec a b); [try (exfalso; lra)|try (exfalso; lra)] end; cbn [fst snd app]).
  reflexivity.
Qed.
Example C68_ex : ex_ev <> [] /\ ex_tb <> [] /\ rising_mags ex_tb /\ falling_years ex_tb /\ every_period_has_events ex_tb ex_ev
  /\ last_year_is None (map snd ex_ev) 1990 /\ (forall r, In r ex_tb -> snd r < 1990) /\ (2 <= List.length ex_tb)%nat.
Proof.
  repeat split; try discriminate.
  - repeat constructor; cbn; lra.
  - repeat constructor; cbn; lra.
  - intros r Hr. rewrite ex_used. destruct Hr as [<-|[<-|[]]]; [exists (9/2, 1990)|exists (6, 1930)]; cbn; tauto.
  - right. split; [reflexivity|]. split; [left; reflexivity|]. cbn. intros y Hy. destruct Hy as [<-|[<-|[<-|[<-|[]]]]]; lra.
  - intros r [<-|[<-|[]]]; cbn; lra.
  - cbn. lia.
Qed.
(** the value for the example: two events, total excess 3/2 *)
Example C68_ex_value : exists o, kijko_smit ex_ev ex_tb None (1/10) "b_value" = Ok o /\ ks_b o = Fin (4/3 / ln 10).
Proof.
  destruct C68_ex as (H1 & H2 & H3 & H4 & H5 & _). destruct (C68_kijko_smit ex_ev ex_tb None (1/10)) as (o & beta & E & Eb & _ & Ev); auto; [lra|].
  exists o. split; [exact E|]. rewrite Eb, Ev, ex_used. apply f_equal. f_equal. unfold excess_mag, Rsum. cbn. field.
Qed.
Example C107_ex : exists tb ev r, ev <> [] /\ rising_mags tb /\ falling_years tb /\ In r tb /\ (forall e, ~ In (e, r) (used tb ev)) /\ used tb ev <> [].
Proof.
  exists [(4, 1980); (5, 1920)], [(9/2, 1990)], (5, 1920). split; [discriminate|]. split; [repeat constructor; cbn; lra|]. split; [repeat constructor; cbn; lra|].
  split; [right; left; reflexivity|].
  assert (E : used [(4, 1980); (5, 1920)] [(9/2, 1990)] = [((9/2, 1990), (4, 1980))]).
  { unfold used. cbn [flat_map]. unfold used_of. cbn [period_of fst snd]. destruct (Rle_dec 1980 1990); [|lra]. cbn [fst]. destruct (Rlt_dec 4 (9/2)); [reflexivity|lra]. }
  rewrite E. split; [|discriminate]. intros e [He|[]]. injection He. lra.
Qed.
Print Assumptions C68_kijko_smit.
Print Assumptions C68_no_complete_events.
Print Assumptions C103_kijko_smit_std.
Print Assumptions C69_kijko_smit_beta_refuted.
Print Assumptions C107_empty_period_refuted.
Print Assumptions C108_rate_refuted.
Print Assumptions C109_a_value_refuted.
Print Assumptions C111_alignment_refuted.
