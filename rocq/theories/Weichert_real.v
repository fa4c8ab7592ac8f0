(** * Real analysis behind Weichert's estimator: exponential families on a finite set of cells *)
From Coq Require Import Reals Lra List Lia ZArith.
From Verif Require Import Base Num XR RList Spec_BValue Likelihood.
Import ListNotations.
Open Scope R_scope.

Section Cells.
  Context {A : Type}.
  Implicit Types (t m : A -> R) (l : list A).
  Definition Zf t m l (b : R) : R := Rsum (map (fun a => t a * exp (- b * m a)) l).
  Definition Mf t m l (b : R) : R := Rsum (map (fun a => t a * m a * exp (- b * m a)) l).
  Definition Qf t m l (b : R) : R := Rsum (map (fun a => t a * (m a * m a) * exp (- b * m a)) l).
  Definition mean_m t m l (b : R) : R := Mf t m l b / Zf t m l b.
  Definition var_m t m l (b : R) : R := Qf t m l b / Zf t m l b - Rsqr (mean_m t m l b).

  Lemma Zf_pos t m l b : l <> [] -> (forall a, In a l -> 0 < t a) -> 0 < Zf t m l b.
  Proof.
    intros Hn Ht. apply Rsum_pos_nonempty; [destruct l; [congruence|discriminate]|].
    intros x Hx. apply in_map_iff in Hx. destruct Hx as (a & <- & Ha).
    apply Rmult_lt_0_compat; [apply Ht; exact Ha|apply exp_pos].
  Qed.
  Lemma dexp c (x b : R) : derivable_pt_lim (fun y => c * exp (- y * x)) b (- (c * x * exp (- b * x))).
  Proof.
    replace (- (c * x * exp (- b * x))) with (c * (exp (- b * x) * (- x))) by ring.
    apply derivable_pt_lim_scal with (f := fun y => exp (- y * x)).
    apply (derivable_pt_lim_comp (fun y => - y * x) exp b).
    - replace (- x) with (-x * 1) by ring.
      apply derivable_pt_lim_ext with (f := fun y => - x * y); [intros; ring|].
      apply derivable_pt_lim_scal with (f := fun y => y). apply derivable_pt_lim_id.
    - apply derivable_pt_lim_exp.
  Qed.
  Lemma dsum (f f' : A -> R -> R) l b : (forall a, In a l -> derivable_pt_lim (f a) b (f' a b)) ->
    derivable_pt_lim (fun y => Rsum (map (fun a => f a y) l)) b (Rsum (map (fun a => f' a b) l)).
  Proof.
    induction l as [|a l IH]; intros H.
    - apply (derivable_pt_lim_const 0).
    - cbn [map]. rewrite Rsum_cons.
      apply (derivable_pt_lim_plus (f a) (fun y => Rsum (map (fun a => f a y) l))).
      + apply H; left; reflexivity.
      + apply IH; intros; apply H; right; assumption.
  Qed.
  Lemma dZ t m l b : derivable_pt_lim (Zf t m l) b (- Mf t m l b).
  Proof.
    unfold Zf, Mf. replace (- _) with (Rsum (map (fun a => - (t a * m a * exp (- b * m a))) l)).
    - apply (dsum (fun a y => t a * exp (- y * m a)) (fun a y => - (t a * m a * exp (- y * m a)))).
      intros a _. apply dexp.
    - rewrite <- (Rmult_1_l (Rsum _)) at 1. rewrite Rmult_1_l.
      transitivity (Rsum (map (fun a => -1 * (t a * m a * exp (- b * m a))) l)).
      + apply Rsum_map_ext. intros; ring.
      + rewrite Rsum_map_scal. ring.
  Qed.
  Lemma dM t m l b : derivable_pt_lim (Mf t m l) b (- Qf t m l b).
  Proof.
    unfold Qf, Mf. replace (- _) with (Rsum (map (fun a => - (t a * m a * m a * exp (- b * m a))) l)).
    - apply (dsum (fun a y => t a * m a * exp (- y * m a)) (fun a y => - (t a * m a * m a * exp (- y * m a)))).
      intros a _. apply dexp.
    - transitivity (Rsum (map (fun a => -1 * (t a * (m a * m a) * exp (- b * m a))) l)).
      + apply Rsum_map_ext. intros; ring.
      + rewrite Rsum_map_scal. ring.
  Qed.

  (** variance of the magnitude under the cell distribution *)
  Lemma central t m l b mu : Rsum (map (fun a => t a * Rsqr (m a - mu) * exp (- b * m a)) l)
    = Qf t m l b - 2 * mu * Mf t m l b + mu * mu * Zf t m l b.
  Proof.
    unfold Qf, Mf, Zf. induction l as [|a l IH]; cbn [map]; rewrite ?Rsum_cons; [unfold Rsum; cbn; ring|].
    rewrite IH. unfold Rsqr. ring.
  Qed.
  Lemma var_central t m l b : l <> [] -> (forall a, In a l -> 0 < t a) ->
    var_m t m l b = Rsum (map (fun a => t a * Rsqr (m a - mean_m t m l b) * exp (- b * m a)) l) / Zf t m l b.
  Proof.
    intros Hn Ht. pose proof (Zf_pos t m l b Hn Ht). rewrite central. unfold var_m, mean_m, Rsqr. field. lra.
  Qed.
  Definition two_values m l : Prop := exists a a', In a l /\ In a' l /\ m a <> m a'.
  Lemma two_values_nonempty m l : two_values m l -> l <> [].
  Proof. intros (a & _ & H & _) ->. destruct H. Qed.
  Lemma var_pos t m l b : two_values m l -> (forall a, In a l -> 0 < t a) -> 0 < var_m t m l b.
  Proof.
    intros H2 Ht. pose proof (two_values_nonempty _ _ H2) as Hn. rewrite var_central by assumption.
    apply Rdiv_lt_0_compat; [|apply Zf_pos; assumption].
    set (mu := mean_m t m l b).
    assert (H0 : forall x, In x (map (fun a => t a * Rsqr (m a - mu) * exp (- b * m a)) l) -> 0 <= x).
    { intros x Hx. apply in_map_iff in Hx. destruct Hx as (a & <- & Ha). pose proof (exp_pos (- b * m a)). pose proof (Ht a Ha).
      pose proof (Rle_0_sqr (m a - mu)). apply Rmult_le_pos; [apply Rmult_le_pos|]; lra. }
    destruct (Rle_lt_or_eq_dec _ _ (Rsum_nonneg _ H0)) as [L|E]; [exact L|exfalso].
    assert (Z : forall a, In a l -> m a = mu).
    { intros a Ha. assert (E0 : t a * Rsqr (m a - mu) * exp (- b * m a) = 0).
      { apply (Rsum_zero_all _ H0 (eq_sym E)). apply in_map_iff. exists a; auto. }
      pose proof (exp_pos (- b * m a)). pose proof (Ht a Ha).
      apply Rmult_integral in E0. destruct E0 as [E0|E0]; [|lra].
      apply Rmult_integral in E0. destruct E0 as [E0|E0]; [lra|]. apply Rsqr_0_uniq in E0. lra. }
    destruct H2 as (a & a' & Ha & Ha' & N). apply N. rewrite (Z a Ha), (Z a' Ha'). reflexivity.
  Qed.
  Lemma dmean t m l b : l <> [] -> (forall a, In a l -> 0 < t a) -> derivable_pt_lim (mean_m t m l) b (- var_m t m l b).
  Proof.
    intros Hn Ht. pose proof (Zf_pos t m l b Hn Ht).
    replace (- var_m t m l b) with ((- Qf t m l b * Zf t m l b - - Mf t m l b * Mf t m l b) / Rsqr (Zf t m l b)).
    - apply (derivable_pt_lim_div (Mf t m l) (Zf t m l)); [apply dM|apply dZ|lra].
    - unfold var_m, mean_m, Rsqr. field. lra.
  Qed.
  Lemma mean_decreasing t m l b b' : two_values m l -> (forall a, In a l -> 0 < t a) -> b < b' ->
    mean_m t m l b' < mean_m t m l b.
  Proof.
    intros H2 Ht L. pose proof (two_values_nonempty _ _ H2) as Hn.
    enough (- mean_m t m l b < - mean_m t m l b') by lra.
    apply (deriv_pos_lt (fun y => - mean_m t m l y) (fun y => - - var_m t m l y)); [exact L| |].
    - intros c _. apply (derivable_pt_lim_opp (mean_m t m l)). apply dmean; assumption.
    - intros c _. rewrite Ropp_involutive. apply var_pos; assumption.
  Qed.

  (** every value strictly between the smallest and the largest magnitude is a mean *)
  Lemma mean_low t m l x a : (forall a, In a l -> 0 < t a) -> In a l -> (forall a', In a' l -> m a <= m a') -> m a < x ->
    exists b, 0 < b /\ mean_m t m l b < x.
  Proof.
    intros Ht Ha Hmin Hx. set (S := Rsum (map t l)).
    assert (Hn : l <> []) by (intros ->; destruct Ha).
    assert (HS : 0 < S).
    { apply Rsum_pos_nonempty; [destruct l; [congruence|discriminate]|]. intros y Hy. apply in_map_iff in Hy. destruct Hy as (z & <- & Hz). auto. }
    pose proof (Ht a Ha) as Hta.
    set (b := 2 * S / (t a * (x - m a))).
    assert (Hd : 0 < t a * (x - m a)) by (apply Rmult_lt_0_compat; lra).
    assert (Hb : 0 < b) by (apply Rdiv_lt_0_compat; lra). exists b. split; [exact Hb|].
    pose proof (Zf_pos t m l b Hn Ht) as HZ.
    (* numerator of mean - m a *)
    assert (E1 : (mean_m t m l b - m a) * Zf t m l b = Rsum (map (fun z => t z * (m z - m a) * exp (- b * m z)) l)).
    { unfold mean_m. replace ((Mf t m l b / Zf t m l b - m a) * Zf t m l b) with (Mf t m l b - m a * Zf t m l b) by (field; lra).
      unfold Mf, Zf. generalize b. clear. intros b. induction l as [|z l IH]; cbn [map]; rewrite ?Rsum_cons; [unfold Rsum; cbn; ring|]. rewrite <- IH. ring. }
    assert (E2 : Rsum (map (fun z => t z * (m z - m a) * exp (- b * m z)) l) <= S / b * exp (- b * m a)).
    { unfold S. replace (Rsum (map t l) / b * exp (- b * m a)) with (exp (- b * m a) / b * Rsum (map t l)) by (field; lra).
      rewrite <- Rsum_map_scal. apply Rsum_map_le. intros z Hz.
      replace (exp (- b * m z)) with (exp (- b * m a) * exp (- (b * (m z - m a)))) by (rewrite <- exp_plus; f_equal; ring).
      pose proof (Hmin z Hz) as Hz'. pose proof (Ht z Hz). pose proof (exp_pos (- b * m a)).
      assert (U : b * (m z - m a) * exp (- (b * (m z - m a))) <= 1).
      { set (u := b * (m z - m a)). assert (0 <= u) by (apply Rmult_le_pos; lra).
        assert (u <= exp u). { destruct (Req_dec u 0) as [->|N]; [rewrite exp_0; lra|]. pose proof (exp_ineq1 u N). lra. }
        rewrite exp_Ropp. pose proof (exp_pos u). apply Rmult_le_reg_r with (exp u); [lra|].
        rewrite Rmult_assoc, Rinv_l by lra. lra. }
      replace (t z * (m z - m a) * (exp (- b * m a) * exp (- (b * (m z - m a)))))
        with (exp (- b * m a) / b * t z * (b * (m z - m a) * exp (- (b * (m z - m a))))) by (field; lra).
      rewrite <- (Rmult_1_r (exp (- b * m a) / b * t z)) at 2. apply Rmult_le_compat_l; [|exact U].
      apply Rmult_le_pos; [|lra]. left. apply Rdiv_lt_0_compat; lra. }
    assert (E3 : t a * exp (- b * m a) <= Zf t m l b).
    { unfold Zf. generalize b. clear - Ha Ht. intros b. induction l as [|z l IH]; [destruct Ha|]. cbn [map]. rewrite Rsum_cons.
      assert (P : 0 <= Rsum (map (fun a => t a * exp (- b * m a)) l)).
      { apply Rsum_nonneg. intros y Hy. apply in_map_iff in Hy. destruct Hy as (w & <- & Hw).
        left. apply Rmult_lt_0_compat; [apply Ht; right; exact Hw|apply exp_pos]. }
      destruct Ha as [->|Ha]; [lra|].
      assert (0 < t z * exp (- b * m z)) by (apply Rmult_lt_0_compat; [apply Ht; left; reflexivity|apply exp_pos]).
      assert (t a * exp (- b * m a) <= Rsum (map (fun a => t a * exp (- b * m a)) l)) by (apply IH; [intros; apply Ht; right; assumption|exact Ha]). lra. }
    assert (E4 : S / b = t a * (x - m a) / 2) by (unfold b; field; lra).
    assert (E5 : (mean_m t m l b - m a) * Zf t m l b <= (x - m a) / 2 * Zf t m l b).
    { rewrite E1. eapply Rle_trans; [exact E2|]. rewrite E4.
      replace (t a * (x - m a) / 2 * exp (- b * m a)) with ((x - m a) / 2 * (t a * exp (- b * m a))) by field.
      apply Rmult_le_compat_l; [lra|exact E3]. }
    apply Rmult_le_reg_r in E5; [|exact HZ]. lra.
  Qed.
  Lemma mean_mirror t m l b : mean_m t (fun a => - m a) l (- b) = - mean_m t m l b.
  Proof.
    unfold mean_m.
    assert (E1 : Zf t (fun a => - m a) l (- b) = Zf t m l b).
    { apply Rsum_map_ext. intros. do 2 f_equal. ring. }
    assert (E2 : Mf t (fun a => - m a) l (- b) = - Mf t m l b).
    { unfold Mf. transitivity (Rsum (map (fun a => -1 * (t a * m a * exp (- b * m a))) l)).
      - apply Rsum_map_ext. intros. replace (- - b * - m x) with (- b * m x) by ring. ring.
      - rewrite Rsum_map_scal. ring. }
    rewrite E1, E2. unfold Rdiv. ring.
  Qed.
  Lemma mean_continuous t m l : l <> [] -> (forall a, In a l -> 0 < t a) -> continuity (mean_m t m l).
  Proof.
    intros Hn Ht b. apply derivable_continuous_pt. exists (- var_m t m l b). apply dmean; assumption.
  Qed.
  Lemma mean_onto t m l x a a' : (forall a, In a l -> 0 < t a) -> In a l -> In a' l ->
    (forall z, In z l -> m a <= m z <= m a') -> m a < x < m a' -> exists b, mean_m t m l b = x.
  Proof.
    intros Ht Ha Ha' Hb Hx. assert (Hn : l <> []) by (intros ->; destruct Ha).
    destruct (mean_low t m l x a Ht Ha (fun z H => proj1 (Hb z H)) (proj1 Hx)) as (b1 & P1 & L1).
    destruct (mean_low t (fun z => - m z) l (- x) a' Ht Ha') as (b2 & P2 & L2).
    { intros z Hz. destruct (Hb z Hz). lra. }
    { lra. }
    replace b2 with (- - b2) in L2 by ring. rewrite mean_mirror in L2.
    destruct (IVT (fun y => x - mean_m t m l y) (- b2) b1) as (z & _ & Ez).
    - apply continuity_minus; [apply continuity_const; intros u v; reflexivity|apply mean_continuous; assumption].
    - lra.
    - lra.
    - lra.
    - exists z. lra.
  Qed.

  (** the log-likelihood of mean magnitude [x] among [n] events *)
  Definition loglik t m l (n x b : R) : R := n * (- b * x - ln (Zf t m l b)).
  Lemma dloglik t m l n x b : l <> [] -> (forall a, In a l -> 0 < t a) ->
    derivable_pt_lim (loglik t m l n x) b (n * (mean_m t m l b - x)).
  Proof.
    intros Hn Ht. pose proof (Zf_pos t m l b Hn Ht) as HZ.
    apply (derivable_pt_lim_scal (fun b => - b * x - ln (Zf t m l b))).
    replace (mean_m t m l b - x) with (- x - / Zf t m l b * (- Mf t m l b)) by (unfold mean_m; field; lra).
    apply (derivable_pt_lim_minus (fun b => - b * x) (fun b => ln (Zf t m l b))).
    - replace (- x) with (- x * 1) by ring. apply derivable_pt_lim_ext with (f := fun y => - x * y); [intros; ring|].
      apply (derivable_pt_lim_scal (fun y => y)). apply derivable_pt_lim_id.
    - apply (derivable_pt_lim_comp (Zf t m l) ln b); [apply dZ|apply derivable_pt_lim_ln; exact HZ].
  Qed.
  Lemma loglik_max t m l n x b0 : two_values m l -> (forall a, In a l -> 0 < t a) -> 0 < n -> mean_m t m l b0 = x ->
    forall b, b <> b0 -> loglik t m l n x b < loglik t m l n x b0.
  Proof.
    intros H2 Ht Hn E b N. pose proof (two_values_nonempty _ _ H2) as Hl.
    destruct (Rtotal_order b b0) as [L|[L|L]]; [| contradiction |].
    - apply (deriv_pos_lt _ (fun c => n * (mean_m t m l c - x))); [exact L| |].
      + intros c _. apply dloglik; assumption.
      + intros c Hc. apply Rmult_lt_0_compat; [exact Hn|]. rewrite <- E.
        pose proof (mean_decreasing t m l c b0 H2 Ht (proj2 Hc)). lra.
    - enough (- loglik t m l n x b0 < - loglik t m l n x b) by lra.
      apply (deriv_pos_lt (fun y => - loglik t m l n x y) (fun c => - (n * (mean_m t m l c - x)))); [exact L| |].
      + intros c _. apply (derivable_pt_lim_opp (loglik t m l n x)). apply dloglik; assumption.
      + intros c Hc. replace (- (n * (mean_m t m l c - x))) with (n * (x - mean_m t m l c)) by ring.
        apply Rmult_lt_0_compat; [exact Hn|]. rewrite <- E.
        pose proof (mean_decreasing t m l b0 c H2 Ht (proj1 Hc)). lra.
  Qed.
End Cells.
