(** * Properties C32 and C33: the positive a-values and the time axis *)
From Coq Require Import ZArith List Bool String Lia Permutation Sorted Reals Lra.
From Verif Require Import Base Num XR RList StateM SortLib Spec_Binning Binning_model Binning_proofs BinTest_proofs BValue_model BValue_run
  BValue_proofs BValue_real Spec_BValue Spec_Positive Positive_proofs Props_BValue Props_BValue2 Props_Positive AValue_model AValue_proofs Props_AValue.
Import ListNotations.
Open Scope R_scope.

(** catalogues: magnitude and time of each event *)
Notation event2 := (xr * R)%type.
Definition cat_args (ev : list event2) (mc : R) (delta : dec) (sc mref b dmc : option R) : @aargs xr :=
  real_args (map fst ev) mc delta sc mref b (map (fun e => Fin (snd e)) ev) dmc.
(** the catalogue with times c*t + s *)
Definition retimed (c s : R) (ev : list event2) : list event2 := map (fun e => (fst e, c * snd e + s)) ev.

Section Seq.
  Variables (mc : R) (delta : dec) (sc mref b dmc : option R).
  Let A2 ev := cat_args ev mc delta sc mref b dmc.
  Definition z0 : event2 := (NaN, 0).
  Definition dmc2 : xr := match dmc with Some x => Fin x | None => dec_val delta end.
  Definition far2 (x y : event2) : bool := nleb (nsub dmc2 (ndiv (dec_val delta) two)) (nsub (fst y) (fst x)).
  Definition tot2 (X : list event2) : R := snd (last X z0) - snd (hd z0 X).
  Definition pairs2 (X : list event2) := filter (fun p => far2 (fst p) (snd p)) (consecutive X).
  Definition pos2 (X : list event2) : xr :=
    match pairs2 X with
    | [] => NaN
    | P => nlog10 (ndiv (Fin (INR (List.length P))) (nsum (map (fun p => ndiv (Fin (snd (snd p) - snd (fst p))) (Fin (tot2 X))) P)))
    end.
  Definition wait2 (X : list event2) (q : event2 * option event2) : R :=
    match snd q with Some y => snd y - snd (fst q) | None => snd (last X z0) - snd (fst q) end.
  Definition more2 (bb : xr) (X : list event2) : xr :=
    match next_pairs far2 X with
    | [] => NaN
    | P => nlog10 (ndiv (Fin (INR (List.length P)))
             (nsum (map (fun q => ndiv (nmul (Fin (wait2 X q)) (npow10 (nmul (nopp bb) (nsub (nadd (fst (fst q)) dmc2) (Fin mc))))) (Fin (tot2 X)))
                        (with_next far2 X))))
    end.

  Lemma mag2 ev i : mag (to_b (A2 ev)) i = fst (nth i ev z0).
  Proof. unfold mag, A2, cat_args, real_args; cbn [to_b a_mags aa_mags]. change (@nnan xr XR) with (fst z0). apply map_nth. Qed.
  Lemma tm2 ev i : (i < List.length ev)%nat -> tm (A2 ev) i = Fin (snd (nth i ev z0)).
  Proof.
    intros H. unfold tm, A2, cat_args, real_args; cbn [aa_times].
    rewrite (nth_indep _ nnan (Fin (snd z0))) by (rewrite map_length; exact H). apply (map_nth (fun e : event2 => Fin (snd e))).
  Qed.
  Lemma dmc2_h ev : the_dmc (to_b (A2 ev)) = dmc2.
  Proof. unfold the_dmc, dmc2, A2, cat_args, real_args; cbn [to_b a_dmc aa_dmc a_delta aa_delta]. destruct dmc; reflexivity. Qed.
  Lemma far2_h ev i j : far (to_b (A2 ev)) i j = far2 (nth i ev z0) (nth j ev z0).
  Proof. unfold far, far2, lim. rewrite dmc2_h, !mag2. reflexivity. Qed.
  Lemma pairs2_h ev order : map (fun p => (nth (fst p) ev z0, nth (snd p) ev z0)) (pos_pairs (to_b (A2 ev)) order)
    = pairs2 (map (fun i => nth i ev z0) order).
  Proof.
    unfold pairs2. rewrite consecutive_map, filter_map_swap. unfold pos_pairs. f_equal. apply filter_ext.
    intros p. rewrite far2_h. reflexivity.
  Qed.
  Lemma next2_h ev order : map (fun p => (nth (fst p) ev z0, nth (snd p) ev z0)) (next_pairs (far (to_b (A2 ev))) order)
    = next_pairs far2 (map (fun i => nth i ev z0) order).
  Proof. rewrite next_pairs_map. f_equal. apply next_pairs_ext. intros x y. apply far2_h. Qed.
  Lemma with_next2_h ev order : map (fun q => (nth (fst q) ev z0, option_map (fun j => nth j ev z0) (snd q))) (with_next (far (to_b (A2 ev))) order)
    = with_next far2 (map (fun i => nth i ev z0) order).
  Proof.
    induction order as [|i l IH]; [reflexivity|]. cbn [with_next map fst snd]. rewrite IH. f_equal. f_equal. rewrite find_map'.
    f_equal. apply find_ext. intros j. apply far2_h.
  Qed.
  Lemma total2 ev order : order <> [] -> (forall i, In i order -> (i < List.length ev)%nat) ->
    total (A2 ev) order = Fin (tot2 (map (fun i => nth i ev z0) order)) /\
    last_of (map (tm (A2 ev)) order) = Fin (snd (last (map (fun i => nth i ev z0) order) z0)).
  Proof.
    intros Hne Hlt. unfold total, tot2.
    assert (L : last_of (map (tm (A2 ev)) order) = Fin (snd (last (map (fun i => nth i ev z0) order) z0))).
    { unfold last_of. destruct (exists_last Hne) as (l & x & ->). rewrite !map_app. cbn [map]. rewrite !last_last. apply tm2. apply Hlt.
      apply in_or_app; right; left; reflexivity. }
    split; [|exact L]. rewrite L. destruct order as [|i l]; [congruence|]. unfold first_of. cbn [map hd]. rewrite tm2 by (apply Hlt; left; reflexivity). reflexivity.
  Qed.
  Lemma pos2_h ev order : order <> [] -> (forall i, In i order -> (i < List.length ev)%nat) ->
    pos_value (A2 ev) order = pos2 (map (fun i => nth i ev z0) order).
  Proof.
    intros Hne Hlt. unfold pos_value, pos2. destruct (total2 ev order Hne Hlt) as [Tt _]. rewrite Tt.
    pose proof (pairs2_h ev order) as P. rewrite <- P.
    assert (In2 : forall p, In p (pos_pairs (to_b (A2 ev)) order) -> (fst p < List.length ev)%nat /\ (snd p < List.length ev)%nat).
    { intros p Hp. unfold pos_pairs in Hp. apply filter_In in Hp. destruct Hp as [Hp _]. apply consecutive_in in Hp. split; apply Hlt; tauto. }
    destruct (pos_pairs (to_b (A2 ev)) order) as [|p ps]; [reflexivity|]. change (map (fun p => (nth (fst p) ev z0, nth (snd p) ev z0)) (p :: ps))
      with ((nth (fst p) ev z0, nth (snd p) ev z0) :: map (fun p => (nth (fst p) ev z0, nth (snd p) ev z0)) ps).
    cbv iota. f_equal. f_equal; [rewrite x_ofnat; cbn [List.length]; rewrite map_length; reflexivity|].
    f_equal. change ((nth (fst p) ev z0, nth (snd p) ev z0) :: map (fun p => (nth (fst p) ev z0, nth (snd p) ev z0)) ps)
      with (map (fun p => (nth (fst p) ev z0, nth (snd p) ev z0)) (p :: ps)).
    rewrite map_map. apply map_ext_in. intros q Hq. destruct (In2 q Hq) as [I1 I2]. rewrite !tm2 by assumption. reflexivity.
  Qed.
  Lemma with_next_in {A} (fr : A -> A -> bool) l q : In q (with_next fr l) -> In (fst q) l /\ (forall j, snd q = Some j -> In j l).
  Proof.
    induction l as [|x l IH]; [intros []|]. cbn [with_next]. intros [<-|H].
    - cbn [fst snd]. split; [left; reflexivity|]. intros j E. apply find_some in E. right; tauto.
    - destruct (IH H) as [H1 H2]. split; [right; exact H1|]. intros j E. right. apply H2. exact E.
  Qed.
  Lemma more2_h ev bb order : order <> [] -> (forall i, In i order -> (i < List.length ev)%nat) ->
    more_value (A2 ev) bb order = more2 bb (map (fun i => nth i ev z0) order).
  Proof.
    intros Hne Hlt. unfold more_value, more2. destruct (total2 ev order Hne Hlt) as [Tt Tl]. rewrite Tt.
    pose proof (next2_h ev order) as P. rewrite <- P. rewrite <- with_next2_h.
    destruct (next_pairs (far (to_b (A2 ev))) order) as [|p ps]; [reflexivity|].
    cbn [map]. cbv iota. f_equal. f_equal; [rewrite x_ofnat; cbn [List.length]; rewrite map_length; reflexivity|].
    f_equal. rewrite map_map. apply map_ext_in. intros q Hq. apply with_next_in in Hq. destruct Hq as [H1 H2].
    unfold tau, wait. rewrite dmc2_h, mag2. f_equal. f_equal. rewrite Tl. unfold wait2. cbn [fst snd].
    destruct (snd q) as [j|] eqn:Ej; cbn [option_map]; rewrite !tm2 by (apply Hlt; auto); reflexivity.
  Qed.
End Seq.

Lemma ndiv_scale c x y : 0 < c -> ndiv (Fin (c * x)) (Fin (c * y)) = ndiv (Fin x) (Fin y).
Proof.
  intros H. cbn. destruct (Req_EM_T (c * y) 0) as [E|E], (Req_EM_T y 0) as [F|F].
  - f_equal. destruct (Rlt_dec 0 (c * x)), (Rlt_dec 0 x), (Rlt_dec (c * x) 0), (Rlt_dec x 0); try reflexivity; exfalso; nra.
  - exfalso. apply Rmult_integral in E. destruct E; lra.
  - exfalso. subst y. apply E. ring.
  - f_equal. field. split; [exact F|lra].
Qed.

(** the time-ordered sequence of complete events of a retimed and reordered catalogue *)
Definition complete2 (mc : R) (delta : dec) (e : event2) : bool := nleb (nsub (Fin mc) (ndiv (dec_val delta) two)) (fst e).
Lemma order_events2 ev mc delta sc mref b dmc order :
  a_time_order (cat_args ev mc delta sc mref b dmc) order ->
  Permutation order (f_idx (to_b (cat_args ev mc delta sc mref b dmc))) ->
  let X := map (fun i => nth i ev z0) order in
  (forall i, In i order -> (i < List.length ev)%nat) /\
  Permutation X (filter (complete2 mc delta) ev) /\ StronglySorted (fun x y => snd x <= snd y) X.
Proof.
  set (a := cat_args ev mc delta sc mref b dmc). intros (_ & _ & S) P X.
  assert (L : forall q, In q order -> (q < List.length ev)%nat).
  { intros q Hq. apply (Permutation_in _ P) in Hq. apply f_idx_lt in Hq. unfold a, cat_args, real_args in Hq; cbn [to_b a_mags aa_mags] in Hq. rewrite map_length in Hq. exact Hq. }
  split; [exact L|]. split.
  - unfold X. eapply Permutation_trans; [apply Permutation_map; exact P|]. rewrite <- (compress_keep z0 (to_b a) ev).
    + unfold keep, a, cat_args, real_args, thr; cbn [to_b a_mags a_mc a_delta aa_mags aa_mc aa_delta]. rewrite map_map. rewrite compress_filter. apply Permutation_refl.
    + unfold a, cat_args, real_args; cbn [to_b a_mags aa_mags]. rewrite map_length. reflexivity.
  - unfold X. apply (StronglySorted_map_in _ _ _ _ S). intros i j Hi Hj H.
    specialize (H (Fin (snd (nth i ev z0))) (Fin (snd (nth j ev z0)))).
    unfold a, cat_args, real_args in H; cbn [aa_times] in H.
    rewrite !nth_error_map, !(nth_error_nth' ev z0) in H by (apply L; assumption). cbn [option_map] in H.
    specialize (H eq_refl eq_refl). cbn in H. apply rle_true in H. exact H.
Qed.

Lemma consecutive_in' {A} (l : list A) p : In p (consecutive l) -> In (fst p) l /\ In (snd p) l.
Proof. apply consecutive_in. Qed.
Lemma last_map {A B} (f : A -> B) l d : last (map f l) (f d) = f (last l d).
Proof. induction l as [|x [|y l] IH]; [reflexivity|reflexivity|]. exact IH. Qed.
Lemma hd_map {A B} (f : A -> B) l d : hd (f d) (map f l) = f (hd d l).
Proof. destruct l; reflexivity. Qed.

Section Affine.
  Variables (c s : R).
  Hypothesis Hc : 0 < c.
  Let G (e : event2) : event2 := (fst e, c * snd e + s).
  Lemma last_retimed X : X <> [] -> last (map G X) z0 = G (last X z0).
  Proof.
    intros H. destruct (exists_last H) as (l & x & ->). rewrite map_app. cbn [map]. rewrite !last_last. reflexivity.
  Qed.
  Lemma tot2_retimed X : X <> [] -> tot2 (map G X) = c * tot2 X.
  Proof. intros H. unfold tot2. rewrite last_retimed by exact H. destruct X as [|x X]; [congruence|]. cbn [map hd]. unfold G. cbn [fst snd]. ring. Qed.
  Lemma pairs2_retimed delta dmc X : pairs2 delta dmc (map G X) = map (fun p => (G (fst p), G (snd p))) (pairs2 delta dmc X).
  Proof. unfold pairs2. rewrite consecutive_map, filter_map_swap. reflexivity. Qed.
  Lemma pos2_retimed delta dmc X : pos2 delta dmc (map G X) = pos2 delta dmc X.
  Proof.
    destruct X as [|x X]; [reflexivity|]. unfold pos2. rewrite pairs2_retimed, tot2_retimed by discriminate.
    destruct (pairs2 delta dmc (x :: X)) as [|p ps]; [reflexivity|]. cbn [map]. cbv iota. f_equal. f_equal; [cbn [List.length]; rewrite map_length; reflexivity|].
    f_equal. f_equal.
    - cbn [fst snd G]. etransitivity; [|apply (ndiv_scale c); exact Hc]. f_equal. f_equal. ring.
    - rewrite map_map. apply map_ext. intros q. cbn [fst snd G]. etransitivity; [|apply (ndiv_scale c); exact Hc]. f_equal. f_equal. ring.
  Qed.
  Lemma with_next_map {A B} (f : A -> B) fr l : with_next fr (map f l) = map (fun q => (f (fst q), option_map f (snd q))) (with_next (fun x y => fr (f x) (f y)) l).
  Proof. induction l as [|x l IH]; [reflexivity|]. cbn [map with_next fst snd]. rewrite find_map', IH. reflexivity. Qed.
  Lemma xmul_fin_scale k x y t : 0 < k -> ndiv (nmul (Fin (k * x)) y) (Fin (k * t)) = ndiv (nmul (Fin x) y) (Fin t).
  Proof.
    intros Hk. assert (Sg : forall v, xsgn (Fin (k * v)) = xsgn (Fin v)).
    { intros v. cbn. destruct (Rlt_dec 0 (k * v)), (Rlt_dec 0 v), (Rlt_dec (k * v) 0), (Rlt_dec v 0); try reflexivity; exfalso; nra. }
    assert (Z : forall v, xsgn (Fin v) = 1%Z \/ xsgn (Fin v) = (-1)%Z \/ xsgn (Fin v) = 0%Z).
    { intros v. cbn. destruct (Rlt_dec 0 v); [auto|]. destruct (Rlt_dec v 0); auto. }
    assert (D : forall u, (if Req_EM_T (k * t) 0 then u else xinf_of (xsgn u * xsgn (Fin (k * t)))) = (if Req_EM_T t 0 then u else xinf_of (xsgn u * xsgn (Fin t)))).
    { intros u. rewrite Sg. destruct (Req_EM_T (k * t) 0) as [E|E], (Req_EM_T t 0) as [F|F]; try reflexivity.
      - exfalso. apply Rmult_integral in E. destruct E; lra.
      - exfalso. subst t. apply E. ring. }
    destruct y as [y| | |].
    - rewrite !x_mul. rewrite Rmult_assoc. apply ndiv_scale. exact Hk.
    - change (nmul (Fin (k * x)) PInf) with (xinf_of (xsgn (Fin (k * x)) * 1)). change (nmul (Fin x) PInf) with (xinf_of (xsgn (Fin x) * 1)). rewrite Sg.
      destruct (Z x) as [->|[->| ->]]; cbn [xinf_of Z.mul]; [exact (D PInf)|exact (D NInf)|reflexivity].
    - change (nmul (Fin (k * x)) NInf) with (xinf_of (xsgn (Fin (k * x)) * -1)). change (nmul (Fin x) NInf) with (xinf_of (xsgn (Fin x) * -1)). rewrite Sg.
      destruct (Z x) as [->|[->| ->]]; cbn [xinf_of Z.mul]; [exact (D NInf)|exact (D PInf)|reflexivity].
    - reflexivity.
  Qed.
  Lemma more2_retimed mc delta dmc bb X : more2 mc delta dmc bb (map G X) = more2 mc delta dmc bb X.
  Proof.
    destruct X as [|x X]; [reflexivity|]. unfold more2. rewrite next_pairs_map. change (fun u v => far2 delta dmc (G u) (G v)) with (far2 delta dmc).
    rewrite with_next_map. change (fun u v => far2 delta dmc (G u) (G v)) with (far2 delta dmc). rewrite tot2_retimed by discriminate.
    destruct (next_pairs (far2 delta dmc) (x :: X)) as [|p ps]; [reflexivity|]. cbn [map]. cbv iota. f_equal. f_equal; [cbn [List.length]; rewrite map_length; reflexivity|].
    f_equal. rewrite map_map. apply map_ext. intros q. cbn [fst]. change (fst (G (fst q))) with (fst (fst q)).
    rewrite <- (xmul_fin_scale c (wait2 (x :: X) q)) by exact Hc. f_equal. f_equal. f_equal.
    unfold wait2. cbn [snd fst]. change (G x :: map G X) with (map G (x :: X)). rewrite last_retimed by discriminate.
    destruct (snd q); cbn [option_map]; unfold G; cbn [fst snd]; ring.
  Qed.
End Affine.

Theorem C32_time_shift_scale_and_order : forall srt srt' k w w' ev ev' c s mc delta sc mref b dmc o ws o' ws',
  k <> AClassic -> argsort_ok srt -> argsort_ok srt' ->
  no_inf (map fst ev) -> NoDup (map snd ev) -> 0 < c ->
  Permutation ev' (retimed c s ev) ->
  let '(s1, r1) := a_calculate srt k w (cat_args ev mc delta sc mref b dmc) (o, ws) in
  let '(s2, r2) := a_calculate srt' k w' (cat_args ev' mc delta sc mref b dmc) (o', ws') in
  r1 = r2 /\
  (forall v, r1 = Ok v -> ao_mags (fst s1) = ao_mags (fst s2) /\ a_n (fst s1) = a_n (fst s2) /\ a_value (fst s1) = a_value (fst s2)).
Proof.
  intros srt srt' k w w' ev ev' c s mc delta sc mref b dmc o ws o' ws' Hk Hs Hs' Hi Nd Hc P.
  set (a := cat_args ev mc delta sc mref b dmc). set (a' := cat_args ev' mc delta sc mref b dmc).
  assert (Ek : apos k = true) by (destruct k; [congruence|reflexivity|reflexivity]).
  assert (PM : Permutation (map fst ev) (map fst ev')).
  { apply Permutation_sym. eapply Permutation_trans; [apply Permutation_map; exact P|]. unfold retimed. rewrite map_map. cbn [fst]. apply Permutation_refl. }
  assert (CK : check (to_b a) = check (to_b a')).
  { change (check (to_b a)) with (check (argsu (map fst ev) mc delta)). change (check (to_b a')) with (check (argsu (map fst ev') mc delta)).
    apply check_u_perm; assumption. }
  destruct (prefix_run srt k w a o ws Ek) as (P1 & P2 & P3). destruct (prefix_run srt' k w' a' o' ws' Ek) as (Q1 & Q2 & Q3).
  assert (Bb : b_ok k a \/ ~ b_ok k a) by (unfold b_ok; destruct k; auto; destruct (falsy (aa_b a)); [right; discriminate|left; reflexivity]).
  destruct Bb as [Hb|Hb]; [|rewrite P2, Q2 by exact Hb; split; [reflexivity|discriminate]].
  destruct (nltb (the_dmc (to_b a)) zero) eqn:Ed.
  { rewrite P3, Q3 by (first [exact Hb | unfold a_dmc_ok; intros HH; change (the_dmc (to_b a')) with (the_dmc (to_b a)) in HH; rewrite Ed in HH; discriminate HH]).
    split; [reflexivity|discriminate]. }
  assert (Hd : a_dmc_ok a) by exact Ed. assert (Hd' : a_dmc_ok a') by exact Ed.
  destruct (check (to_b a)) as [[]|e] eqn:Ec.
  2:{ destruct (a_check_fails srt k w a o ws e) as (s1 & C1 & _); [intros _; split; assumption|exact Ec|].
      destruct (a_check_fails srt' k w' a' o' ws' e) as (s2 & C2 & _); [intros _; split; [exact Hd'|exact Hb]|symmetry; exact CK|].
      rewrite C1, C2. split; [reflexivity|discriminate]. }
  assert (Ht : a_times_fit a) by (unfold a_times_fit, a, cat_args, real_args; cbn [aa_times aa_mags]; rewrite !map_length; reflexivity).
  assert (Ht' : a_times_fit a') by (unfold a_times_fit, a', cat_args, real_args; cbn [aa_times aa_mags]; rewrite !map_length; reflexivity).
  assert (Seq : forall order order', a_time_order a order -> Permutation order (f_idx (to_b a)) -> a_time_order a' order' -> Permutation order' (f_idx (to_b a')) ->
     map (fun i => nth i ev' z0) order' = map (fun e => (fst e, c * snd e + s)) (map (fun i => nth i ev z0) order) /\
     (forall i, In i order -> (i < List.length ev)%nat) /\ (forall i, In i order' -> (i < List.length ev')%nat)).
  { intros order order' To Po To' Po'.
    destruct (order_events2 _ _ _ _ _ _ _ _ To Po) as (L & PX & SX). destruct (order_events2 _ _ _ _ _ _ _ _ To' Po') as (L' & PX' & SX').
    split; [|split; assumption].
    set (X := map (fun i => nth i ev z0) order) in *. set (X' := map (fun i => nth i ev' z0) order') in *.
    assert (Nd' : NoDup (map snd ev')).
    { apply (Permutation_NoDup (l := map (fun t => c * t + s) (map snd ev))).
      - apply Permutation_sym. eapply Permutation_trans; [apply Permutation_map; exact P|]. unfold retimed. rewrite !map_map. apply Permutation_refl.
      - clear - Nd Hc. induction Nd as [|x l Hx Hl IH]; cbn; constructor; [|exact IH]. intros F. apply in_map_iff in F.
        destruct F as (y & E & Hy). assert (y = x) by nra. subst y. contradiction. }
    apply (sorted_perm_unique (fun x y => snd x <= snd y)); [|exact SX'| |].
    - intros x y Hx Hy L1 L2. apply (Permutation_in _ PX') in Hx, Hy. apply filter_In in Hx, Hy.
      apply (NoDup_map_inj snd ev'); [exact Nd'|tauto|tauto|lra].
    - apply (StronglySorted_map_in _ _ _ _ SX). intros x y _ _ Lx. cbn [snd]. nra.
    - eapply Permutation_trans; [exact PX'|]. eapply Permutation_trans; [apply filter_perm; exact P|].
      unfold retimed. rewrite filter_map_swap. apply Permutation_map. apply Permutation_sym. exact PX. }
  assert (En : forall order order' : list nat, List.length order = List.length order' -> order <> [] -> order' <> []) by (intros [] []; cbn; congruence).
  assert (Sc : forall v, a_reference_scaling a v = a_reference_scaling a' v) by reflexivity.
  destruct k; [congruence| |].
  - destruct (a_positive_run srt Hs a Ht Hd Ec) as (order & To & Po & R). destruct (R w o ws) as (x1 & R1).
    destruct (a_positive_run srt' Hs' a' Ht' Hd' (eq_sym CK)) as (order' & To' & Po' & R'). destruct (R' w' o' ws') as (x2 & R2).
    destruct (Seq order order' To Po To' Po') as (EX & L & L').
    assert (Ll : List.length order = List.length order').
    { apply (f_equal (@List.length _)) in EX. rewrite !map_length in EX. congruence. }
    rewrite R1, R2. destruct order as [|i0 order0]; [destruct order'; [|discriminate]; split; [reflexivity|intros; repeat split]|].
    destruct order' as [|j0 order0']; [discriminate|].
    remember (i0 :: order0) as order. remember (j0 :: order0') as order'.
    assert (N1 : order <> []) by (subst; discriminate). assert (N2 : order' <> []) by (subst; discriminate).
    unfold result. unfold a at 2. unfold a' at 2. rewrite (pos2_h mc delta sc mref b dmc ev order N1 L), (pos2_h mc delta sc mref b dmc ev' order' N2 L'), EX, (pos2_retimed c s Hc), Sc.
    assert (Em : map (fun p => mag (to_b a) (snd p)) (pos_pairs (to_b a) order) = map (fun p => mag (to_b a') (snd p)) (pos_pairs (to_b a') order')).
    { transitivity (map (fun p : event2 * event2 => fst (snd p)) (pairs2 delta dmc (map (fun i => nth i ev z0) order))).
      - rewrite <- (pairs2_h mc delta sc mref b dmc ev order), map_map. apply map_ext. intros p. apply mag2.
      - symmetry. transitivity (map (fun p : event2 * event2 => fst (snd p)) (pairs2 delta dmc (map (fun i => nth i ev' z0) order'))).
        + rewrite <- (pairs2_h mc delta sc mref b dmc ev' order'), map_map. apply map_ext. intros p. apply mag2.
        + rewrite EX, (pairs2_retimed c s), map_map. apply map_ext. reflexivity. }
    rewrite Em. destruct (a_reference_scaling a' _); (split; [reflexivity|]); [|discriminate]. intros v _. repeat split.
  - unfold b_ok, falsy in Hb. destruct (aa_b a) as [bb|] eqn:Eb; [|discriminate]. assert (Eb' : aa_b a' = Some bb) by exact Eb.
    destruct (a_more_run srt Hs a bb Ht Hd Eb Hb Ec) as (order & To & Po & R). destruct (R w o ws) as (x1 & R1).
    destruct (a_more_run srt' Hs' a' bb Ht' Hd' Eb' Hb (eq_sym CK)) as (order' & To' & Po' & R'). destruct (R' w' o' ws') as (x2 & R2).
    destruct (Seq order order' To Po To' Po') as (EX & L & L').
    assert (Ll : List.length order = List.length order').
    { apply (f_equal (@List.length _)) in EX. rewrite !map_length in EX. congruence. }
    rewrite R1, R2. destruct order as [|i0 order0]; [destruct order'; [|discriminate]; split; [reflexivity|intros; repeat split]|].
    destruct order' as [|j0 order0']; [discriminate|].
    remember (i0 :: order0) as order. remember (j0 :: order0') as order'.
    assert (N1 : order <> []) by (subst; discriminate). assert (N2 : order' <> []) by (subst; discriminate).
    unfold result. cbv zeta. unfold a at 2. unfold a' at 2.
    rewrite (more2_h mc delta sc mref b dmc ev bb order N1 L), (more2_h mc delta sc mref b dmc ev' bb order' N2 L'), EX, (more2_retimed c s Hc), Sc.
    assert (Em : map (fun p => mag (to_b a) (snd p)) (next_pairs (far (to_b a)) order) = map (fun p => mag (to_b a') (snd p)) (next_pairs (far (to_b a')) order')).
    { transitivity (map (fun p : event2 * event2 => fst (snd p)) (next_pairs (far2 delta dmc) (map (fun i => nth i ev z0) order))).
      - rewrite <- (next2_h mc delta sc mref b dmc ev order), map_map. apply map_ext. intros p. apply mag2.
      - symmetry. transitivity (map (fun p : event2 * event2 => fst (snd p)) (next_pairs (far2 delta dmc) (map (fun i => nth i ev' z0) order'))).
        + rewrite <- (next2_h mc delta sc mref b dmc ev' order'), map_map. apply map_ext. intros p. apply mag2.
        + rewrite EX, next_pairs_map, map_map. apply map_ext. reflexivity. }
    rewrite Em. destruct (a_reference_scaling a' _); (split; [reflexivity|]); [|discriminate]. intros v _. repeat split.
Qed.
Print Assumptions C32_time_shift_scale_and_order.
Example C32_example : argsort_ok xr_argsort /\ NoDup (map snd [(Fin 1, 3); (Fin 2, 1)]) /\
  Permutation [(Fin 2, 3); (Fin 1, 7)] (retimed 2 1 [(Fin 1, 3); (Fin 2, 1)]).
Proof.
  split; [apply xr_argsort_ok|]. split; [cbn; constructor; [cbn; intros [H|[]]; lra|constructor; [intros []|constructor]]|].
  cbn. replace (2 * 1 + 1) with 3 by ring. replace (2 * 3 + 1) with 7 by ring. apply perm_swap.
Qed.

(** ** C33: a-positive and the number of used differences *)
Lemma telescope (X : list event2) : X <> [] -> Rsum (map (fun p => snd (snd p) - snd (fst p)) (consecutive X)) = tot2 X.
Proof.
  intros H. unfold tot2. induction X as [|x X IH]; [congruence|]. destruct X as [|y X].
  - unfold consecutive, Rsum. cbn. ring.
  - change (consecutive (x :: y :: X)) with ((x, y) :: consecutive (y :: X)). cbn [map]. rewrite Rsum_cons, IH by discriminate.
    cbn [fst snd hd]. change (last (x :: y :: X) z0) with (last (y :: X) z0). ring.
Qed.
Lemma consecutive_strict (X : list event2) : StronglySorted (fun x y => snd x <= snd y) X -> NoDup (map snd X) ->
  forall p, In p (consecutive X) -> snd (fst p) < snd (snd p).
Proof.
  intros S. induction S as [|x X S IH F]; intros Nd p Hp; [destruct Hp|]. destruct X as [|y X]; [destruct Hp|].
  change (consecutive (x :: y :: X)) with ((x, y) :: consecutive (y :: X)) in Hp. cbn [map] in Nd. inversion Nd as [|? ? Nx Nd']; subst.
  destruct Hp as [<-|Hp]; [|apply IH; assumption]. cbn [fst snd]. inversion F; subst. destruct (Rle_lt_or_eq_dec _ _ H1) as [L|L]; [exact L|].
  exfalso. apply Nx. left. symmetry. exact L.
Qed.
Lemma filter_NoDup_map {A B} (f : A -> B) (p : A -> bool) l : NoDup (map f l) -> NoDup (map f (filter p l)).
Proof.
  induction l as [|x l IH]; cbn; [auto|]. intros H. inversion H; subst. destruct (p x); cbn; auto. constructor; auto.
  intros F. apply H2. apply in_map_iff in F. destruct F as (y & E & Hy). apply filter_In in Hy. rewrite <- E. apply in_map. tauto.
Qed.

(** [X] is the sequence of the complete events in the order of time *)
Definition in_time_order (mc d : R) (ev X : list event2) : Prop :=
  Permutation X (filter (fun e => nleb (Fin (mc - d / 2)) (fst e)) ev) /\ StronglySorted (fun x y => snd x < snd y) X.
(** the increase in magnitude is at least dmc - delta_m/2 *)
Definition increases (dmc d : R) (p : event2 * event2) : bool := nleb (Fin (dmc - d / 2)) (nsub (fst (snd p)) (fst (fst p))).

Theorem C33_formula : forall srt w ev mc delta b dmc o ws o' ws' v,
  argsort_ok srt -> NoDup (map snd ev) ->
  a_calculate srt APositive w (cat_args ev mc delta None None b dmc) (o, ws) = ((o', ws'), Ok v) ->
  let d := decR delta in
  exists X, in_time_order mc d ev X /\
    let used := filter (increases (match dmc with Some x => x | None => d end) d) (consecutive X) in
    a_n o' = Ok (List.length used) /\
    (used = [] -> v = NaN) /\
    (used <> [] -> exists x, v = Fin x /\
       Rpower 10 x = INR (List.length used) *
         ((snd (last X z0) - snd (hd z0 X)) / Rsum (map (fun p => snd (snd p) - snd (fst p)) used))).
Proof.
  intros srt w ev mc delta b dmc o ws o' ws' v Hs Nd C d. set (a := cat_args ev mc delta None None b dmc) in *.
  destruct (a_pos_starts srt APositive w a o ws _ v eq_refl C) as (Hd & _ & Hc).
  assert (Ht : a_times_fit a) by (unfold a_times_fit, a, cat_args, real_args; cbn [aa_times aa_mags]; rewrite !map_length; reflexivity).
  destruct (a_positive_run srt Hs a Ht Hd Hc) as (order & To & Po & R). destruct (R w o ws) as (x1 & R1). clear R. rewrite C in R1.
  destruct (order_events2 _ _ _ _ _ _ _ _ To Po) as (L & PX & SX). set (X := map (fun i => nth i ev z0) order) in *. exists X.
  assert (Th : forall e : event2, complete2 mc delta e = nleb (Fin (mc - d / 2)) (fst e)).
  { intros e. unfold complete2. rewrite thr_fin. reflexivity. }
  rewrite (filter_ext _ _ Th) in PX.
  assert (NX : NoDup (map snd X)).
  { apply (Permutation_NoDup (l := map snd (filter (fun e => nleb (Fin (mc - d / 2)) (fst e)) ev))); [apply Permutation_map, Permutation_sym, PX|].
    apply filter_NoDup_map. exact Nd. }
  assert (SX' : StronglySorted (fun x y => snd x < snd y) X).
  { clear - SX NX. induction SX as [|x l S IH F]; [constructor|]. cbn [map] in NX. inversion NX as [|? ? N1 N2]; subst. constructor; [apply IH; exact N2|].
    rewrite Forall_forall in *. intros y Hy. specialize (F y Hy). destruct (Rle_lt_or_eq_dec _ _ F) as [Lt|E]; [exact Lt|]. exfalso. apply N1. rewrite E. apply in_map. exact Hy. }
  split; [split; assumption|]. cbv zeta.
  assert (Eu : filter (increases (match dmc with Some x => x | None => d end) d) (consecutive X) = pairs2 delta dmc X).
  { unfold pairs2. apply filter_ext. intros p. unfold increases, far2, dmc2. f_equal. destruct dmc as [x|].
    - symmetry. apply thr_fin.
    - rewrite x_dec_val. symmetry. pose proof (thr_fin (decR delta) delta) as E. rewrite x_dec_val in E. exact E. }
  rewrite Eu. pose proof (pairs2_h mc delta None None b dmc ev order) as Ep. fold a X in Ep.
  assert (Sc : forall u, a_reference_scaling a u = Ok u) by reflexivity.
  destruct order as [|i0 order0].
  - injection R1 as -> _ ->. unfold X; cbn [map]. split; [reflexivity|]. split; [reflexivity|]. intros Hne. exfalso. apply Hne. reflexivity.
  - remember (i0 :: order0) as order. assert (Ne : order <> []) by (subst; discriminate).
    unfold result in R1. rewrite Sc in R1. injection R1 as -> _ ->.
    unfold a_n, a_value, omags, done; cbn [ao_a ao_mags rmap]. rewrite map_length.
    split; [f_equal; rewrite <- Ep, map_length; reflexivity|].
    unfold a. rewrite (pos2_h mc delta None None b dmc ev order Ne L). fold X. unfold pos2.
    assert (NeX : X <> []) by (unfold X; destruct order; [congruence|discriminate]).
    split; [intros E; rewrite E; reflexivity|]. intros Hu.
    assert (Pp : forall p, In p (pairs2 delta dmc X) -> 0 < snd (snd p) - snd (fst p)).
    { intros p Hp. apply filter_In in Hp. destruct Hp as [Hp _]. pose proof (consecutive_strict X SX NX p Hp). lra. }
    assert (Su : 0 < Rsum (map (fun p => snd (snd p) - snd (fst p)) (pairs2 delta dmc X))).
    { apply Rsum_pos_nonempty; [destruct (pairs2 delta dmc X); [congruence|discriminate]|]. intros y Hy. apply in_map_iff in Hy. destruct Hy as (p & <- & Hp). apply Pp. exact Hp. }
    assert (Tp : 0 < tot2 X).
    { rewrite <- (telescope X NeX). rewrite (Rsum_filter_split (fun p => far2 delta dmc (fst p) (snd p))). fold (pairs2 delta dmc X).
      assert (0 <= Rsum (map (fun p : event2 * event2 => snd (snd p) - snd (fst p)) (filter (fun x => negb (far2 delta dmc (fst x) (snd x))) (consecutive X)))).
      { apply Rsum_nonneg. intros y Hy. apply in_map_iff in Hy. destruct Hy as (p & <- & Hp). apply filter_In in Hp. destruct Hp as [Hp _]. pose proof (consecutive_strict X SX NX p Hp). lra. }
      lra. }
    assert (Es : nsum (map (fun p : event2 * event2 => ndiv (Fin (snd (snd p) - snd (fst p))) (Fin (tot2 X))) (pairs2 delta dmc X))
      = Fin (/ tot2 X * Rsum (map (fun p => snd (snd p) - snd (fst p)) (pairs2 delta dmc X)))).
    { rewrite <- Rsum_map_scal. rewrite <- x_sum, map_map. f_equal. apply map_ext. intros p. rewrite x_div by lra. f_equal. unfold Rdiv. ring. }
    set (S0 := Rsum (map (fun p : event2 * event2 => snd (snd p) - snd (fst p)) (pairs2 delta dmc X))) in *.
    assert (Hn : 0 < INR (List.length (pairs2 delta dmc X))) by (apply lt_0_INR; destruct (pairs2 delta dmc X); [congruence|cbn; lia]).
    assert (Hi : 0 < / tot2 X) by (apply Rinv_0_lt_compat; exact Tp).
    assert (Pv : (match pairs2 delta dmc X with [] => NaN | _ => nlog10 (ndiv (Fin (INR (List.length (pairs2 delta dmc X))))
         (nsum (map (fun p : event2 * event2 => ndiv (Fin (snd (snd p) - snd (fst p))) (Fin (tot2 X))) (pairs2 delta dmc X)))) end)
        = Fin (log10 (INR (List.length (pairs2 delta dmc X)) / (/ tot2 X * S0)))).
    { rewrite Es. destruct (pairs2 delta dmc X) as [|p ps] eqn:E0; [congruence|]. rewrite <- E0 in *.
      rewrite x_div by nra. rewrite x_log10; [reflexivity|]. apply Rdiv_lt_0_compat; [exact Hn|nra]. }
    destruct (pairs2 delta dmc X) as [|p ps] eqn:E0; [congruence|]. rewrite <- E0 in *.
    eexists. split; [exact Pv|]. rewrite pow10_log10 by (apply Rdiv_lt_0_compat; [exact Hn|nra]). unfold tot2 in *. field. split; lra.
Qed.
Print Assumptions C33_formula.

Theorem C33_at_least_the_count : forall srt w ev mc delta b dmc o ws o' ws' v n,
  argsort_ok srt -> NoDup (map snd ev) ->
  a_calculate srt APositive w (cat_args ev mc delta None None b dmc) (o, ws) = ((o', ws'), Ok v) ->
  a_n o' = Ok n -> (0 < n)%nat ->
  exists x, v = Fin x /\ INR n <= Rpower 10 x /\
    (n + 1 = n_complete (map fst ev) mc (decR delta) -> Rpower 10 x = INR n)%nat.
Proof.
  intros srt w ev mc delta b dmc o ws o' ws' v n Hs Nd C An Hn.
  destruct (C33_formula srt w ev mc delta b dmc o ws o' ws' v Hs Nd C) as (X & [PX SX] & A & _ & V). cbv zeta in A, V.
  set (used := filter _ (consecutive X)) in *. rewrite An in A. injection A as A.
  assert (Hu : used <> []) by (intros E; rewrite E in A; cbn in A; lia).
  destruct (V Hu) as (x & -> & Hx). exists x. split; [reflexivity|]. rewrite Hx, <- A.
  assert (NX : NoDup (map snd X)).
  { apply (Permutation_NoDup (l := map snd (filter (fun e => nleb (Fin (mc - decR delta / 2)) (fst e)) ev))); [apply Permutation_map, Permutation_sym, PX|].
    apply filter_NoDup_map. exact Nd. }
  assert (SX' : StronglySorted (fun x y : event2 => snd x <= snd y) X) by (apply (StronglySorted_impl (fun x y => snd x < snd y)); [intros; lra|exact SX]).
  assert (NeX : X <> []) by (intros ->; apply Hu; reflexivity).
  assert (Pp : forall p, In p (consecutive X) -> 0 < snd (snd p) - snd (fst p)).
  { intros p Hp. pose proof (consecutive_strict X SX' NX p Hp). lra. }
  pose proof (telescope X NeX) as Te. unfold tot2 in Te. rewrite <- Te.
  set (f := fun p : event2 * event2 => snd (snd p) - snd (fst p)) in *.
  assert (Su : 0 < Rsum (map f used)).
  { apply Rsum_pos_nonempty; [destruct used; [congruence|discriminate]|]. intros y Hy. apply in_map_iff in Hy. destruct Hy as (p & <- & Hp).
    apply filter_In in Hp. apply Pp. tauto. }
  assert (Le : Rsum (map f used) <= Rsum (map f (consecutive X))).
  { rewrite (Rsum_filter_split (increases (match dmc with Some x0 => x0 | None => decR delta end) (decR delta)) f (consecutive X)). fold used.
    assert (0 <= Rsum (map f (filter (fun x0 => negb (increases (match dmc with Some x1 => x1 | None => decR delta end) (decR delta) x0)) (consecutive X)))); [|lra].
    apply Rsum_nonneg. intros y Hy. apply in_map_iff in Hy. destruct Hy as (p & <- & Hp). apply filter_In in Hp. left. apply Pp. tauto. }
  assert (H1 : 1 <= Rsum (map f (consecutive X)) / Rsum (map f used)).
  { apply (Rmult_le_reg_r (Rsum (map f used))); [exact Su|]. unfold Rdiv. rewrite Rmult_assoc, Rinv_l by lra. lra. }
  assert (HI : 0 < INR n) by (apply lt_0_INR; exact Hn).
  split; [nra|]. intros Ha.
  assert (Lc : List.length (consecutive X) = n).
  { unfold consecutive. rewrite combine_length. assert (List.length X = n + 1)%nat.
    { rewrite Ha. apply Permutation_length in PX. rewrite PX. unfold n_complete, count. rewrite filter_map_swap, map_length. reflexivity. }
    destruct X as [|x0 X0]; [congruence|]. cbn [tl List.length] in *. lia. }
  assert (Eu : used = consecutive X).
  { assert (forall (l : list (event2 * event2)) p, List.length (filter p l) = List.length l -> filter p l = l) as FL.
    { clear. intros l p. induction l as [|y l IH]; [reflexivity|]. cbn. destruct (p y); cbn; intros E.
      - f_equal. apply IH. lia.
      - exfalso. pose proof (filter_length_le' p l). lia. }
    apply FL. fold used. lia. }
  rewrite Eu in *. field. lra.
Qed.
Print Assumptions C33_at_least_the_count.
(** a run that returns a value: magnitudes 1, 2, 3 at the times 1, 2, 3 *)
Example C33_example : exists o' ws' v,
  a_calculate xr_argsort APositive false (cat_args [(Fin 1, 1); (Fin 2, 2); (Fin 3, 3)] 0 (mkdec 1 0) None None None None) (new_aobj, []) = ((o', ws'), Ok v) /\
  NoDup (map snd [(Fin 1, 1); (Fin 2, 2); (Fin 3, 3)]).
Proof.
  set (a := cat_args _ _ _ _ _ _ _).
  assert (Hb : a_binned_ok a).
  { right. pose proof (check_grid [1; 2; 3] 0 (mkdec 1 0) 0) as K. rewrite check_u in K. cbn [map] in K.
    unfold a, cat_args, real_args; cbn [aa_mags aa_delta map fst].
    rewrite x_lit. change (IZR 1 / IZR (10 ^ Z.of_nat 15)) with tol15.
    destruct (binning_test _ _ _ _) as [[]|]; [reflexivity| |]; exfalso;
      (assert (X : forall e : exn, Err e <> Ok tt) by discriminate);
      (eapply X; apply K; [rewrite decR1; unfold epsR; simpl; lra|rewrite decR1; intros m [<-|[<-|[<-|[]]]]; [exists 1%Z|exists 2%Z|exists 3%Z]; simpl; lra]). }
  assert (Hd : a_dmc_ok a).
  { unfold a_dmc_ok, the_dmc, a, cat_args, real_args; cbn [to_b a_dmc aa_dmc a_delta aa_delta option_map]. rewrite x_dec_val, decR1, x_zero, x_ltb. apply rlt_false. lra. }
  assert (Ht : a_times_fit a) by reflexivity.
  destruct (a_positive_run xr_argsort xr_argsort_ok a Ht Hd (a_check_ok a Hb)) as (order & _ & _ & R). destruct (R false new_aobj []) as (x1 & R1).
  assert (N : NoDup (map snd [(Fin 1, 1); (Fin 2, 2); (Fin 3, 3)])).
  { cbn [map snd]. repeat constructor; cbn [In]; intuition lra. }
  destruct order as [|i0 order0]; [eexists _, _, _; split; [exact R1|exact N]|].
  unfold result in R1. assert (Sc : forall u, a_reference_scaling a u = Ok u) by reflexivity. rewrite Sc in R1.
  eexists _, _, _. split; [exact R1|exact N].
Qed.
