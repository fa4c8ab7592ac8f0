(** * C190: the function estimate_a, the estimator objects and the method of the catalogue *)
From Coq Require Import ZArith List Bool String Lia Permutation Sorted Reals Lra.
From Verif Require Import Base Num XR RList Dict StateM SortLib Spec_Binning Binning_model Binning_proofs BinTest_proofs BValue_model BValue_run
  BValue_proofs BValue_real Spec_BValue Spec_Positive Positive_proofs Props_BValue Props_BValue2 Props_Positive AValue_model AValue_proofs Props_AValue
  Catalog_model Spec_Catalog Props_Catalog2.
Import ListNotations.
Open Scope string_scope.

(** estimate_a gives what [calculate] of any object of the class gives, whatever the object was
    used for before and whether or not warnings are on; and after a successful call the attribute
    a_value of that object is the same number *)
Theorem C190_function_and_object : forall T (N : Num T) srt k w w' (a : @aargs T) o ws,
  argsort_ok srt -> (k <> AClassic -> List.length (aa_times a) = List.length (aa_mags a)) ->
  let '((o', _), r) := a_calculate srt k w' a (o, ws) in
  estimate_a srt k w a = r /\ (forall v, r = Ok v -> a_value o' = Ok v).
Proof.
  intros T N srt k w w' a o ws Hs Ht.
  assert (Q : forall w o ws, let '((o', _), r) := a_calculate srt k w a (o, ws) in forall v, r = Ok v -> a_value o' = Ok v).
  { clear w w' o ws. intros w o ws. assert (B : forall b : bool, b = true \/ b = false) by (intros []; auto).
    destruct (apos k) eqn:Ek.
    - destruct (prefix_run srt k w a o ws Ek) as (P1 & P2 & P3).
      assert (Hb : b_ok k a \/ ~ b_ok k a) by (unfold b_ok; destruct k; auto; destruct (falsy (aa_b a)); [right; discriminate|left; reflexivity]).
      destruct Hb as [Hb|Hb]; [|rewrite P2 by exact Hb; discriminate].
      destruct (B (nltb (the_dmc (to_b a)) zero)) as [Ed|Hd].
      { rewrite P3 by (first [exact Hb | unfold a_dmc_ok; intros HH; rewrite Ed in HH; discriminate HH]). discriminate. }
      clear P1 P2 P3. destruct (check (to_b a)) as [[]|e] eqn:Ec.
      2:{ destruct (a_check_fails srt k w a o ws e) as ([o1 s1] & C1 & _); [intros _; split; assumption|exact Ec|]. rewrite C1. discriminate. }
      destruct k; [discriminate| |].
      + destruct (a_positive_run srt Hs a (Ht ltac:(discriminate)) Hd Ec) as (order & _ & _ & R). destruct (R w o ws) as (x1 & ->).
        destruct order; [intros v [= <-]; reflexivity|]. unfold result. destruct (a_reference_scaling a _); [intros ? [= <-]; reflexivity|discriminate].
      + unfold b_ok, falsy in Hb. destruct (aa_b a) as [b|] eqn:Eb; [|discriminate].
        destruct (a_more_run srt Hs a b (Ht ltac:(discriminate)) Hd Eb Hb Ec) as (order & _ & _ & R). destruct (R w o ws) as (x1 & ->).
        destruct order; [intros v [= <-]; reflexivity|]. unfold result. cbv zeta. destruct (a_reference_scaling a _); [intros ? [= <-]; reflexivity|discriminate].
    - destruct k; try discriminate. pose proof (a_classic_run srt w a o ws) as R1. destruct (check (to_b a)) as [[]|e].
      + destruct R1 as (x1 & ->). cbv zeta. destruct (f_mags (to_b a)); [intros v [= <-]; reflexivity|].
        destruct (a_reference_scaling a _); [intros ? [= <-]; reflexivity|discriminate].
      + destruct R1 as ([o1 s1] & -> & _). discriminate. }
  assert (E : snd (a_calculate srt k w a (new_aobj, [])) = snd (a_calculate srt k w' a (o, ws))).
  { destruct k.
    - pose proof (a_classic_run srt w a new_aobj []) as R1. pose proof (a_classic_run srt w' a o ws) as R2. destruct (check (to_b a)) as [[]|e].
      + destruct R1 as (x1 & ->), R2 as (x2 & ->). cbv zeta. destruct (f_mags (to_b a)); [reflexivity|]. destruct (a_reference_scaling a _); reflexivity.
      + destruct R1 as (x1 & -> & _), R2 as (x2 & -> & _). reflexivity.
    - pose proof (C74_history_independent T N srt APositive w w' a new_aobj [] o ws Hs Ht ltac:(discriminate)) as H.
      destruct (a_calculate srt APositive w a _) as [s1 r1], (a_calculate srt APositive w' a _) as [s2 r2]. exact (proj1 H).
    - pose proof (C74_history_independent T N srt AMorePositive w w' a new_aobj [] o ws Hs Ht ltac:(discriminate)) as H.
      destruct (a_calculate srt AMorePositive w a _) as [s1 r1], (a_calculate srt AMorePositive w' a _) as [s2 r2]. exact (proj1 H). }
  pose proof (Q w new_aobj []) as Q1. pose proof (Q w' o ws) as Q2. unfold estimate_a.
  destruct (a_calculate srt k w a (new_aobj, [])) as [[o1 s1] r1], (a_calculate srt k w' a (o, ws)) as [[o2 s2] r2]. cbn [snd fst] in *. subst r2.
  split; [|exact Q2]. destruct r1 as [v|e]; cbn [rbind]; [|reflexivity]. apply Q1. reflexivity.
Qed.
Print Assumptions C190_function_and_object.

(** Catalog.estimate_a returns an object whose a-value is that of the function with the same
    arguments, and fails as the function does *)
Theorem C190_catalogue : forall T (N : Num T) srt w mc delta s mref b k kw (c : @catalog T) mags ts, argsort_ok srt ->
  dget (c_cols c) "magnitude" = Some mags ->
  (k = AClassic -> kw = mkkwa None None /\ ts = []) ->
  (k <> AClassic -> times_used (option_map Some (kwa_times kw)) (c_cols c) = Some ts /\ List.length ts = List.length mags /\ (kwa_dmc kw <> None \/ dget (c_cols c) "dmc" = None)) ->
  let args := mkaargs mags mc delta s mref b ts (match kwa_dmc kw with Some d => d | None => None end) in
  (let? o := snd (cat_estimate_a srt w (Some mc) (Some delta) s mref b k kw c) in a_value o) = estimate_a srt k w args.
Proof.
  intros T N srt w mc delta s mref b k kw c mags ts Hs Hm H1 H2 args.
  assert (E : snd (cat_estimate_a srt w (Some mc) (Some delta) s mref b k kw c) =
    match a_calculate srt k w args (new_aobj, []) with
    | ((o, _), Ok _) => match a_value o with Ok _ => Ok o | Err e => Err e end
    | (_, Err e) => Err e
    end).
  { destruct k.
    - destruct (H1 eq_refl) as [-> ->]. apply C140_a_classic. exact Hm.
    - destruct (H2 ltac:(discriminate)) as (A1 & _ & A3). apply C140_a_positive; auto.
    - destruct (H2 ltac:(discriminate)) as (A1 & _ & A3). apply C140_a_positive; auto. }
  rewrite E. unfold estimate_a. destruct (a_calculate srt k w args (new_aobj, [])) as [[o x] [v|e]]; cbn [rbind fst]; [|reflexivity].
  destruct (a_value o) eqn:V; cbn [rbind]; [exact V|reflexivity].
Qed.
Print Assumptions C190_catalogue.

Example C190_case : argsort_ok xr_argsort /\ List.length (aa_times ex34) = List.length (aa_mags ex34) /\ a_binned_ok ex34 /\ a_startable APositive ex34 /\
  times_used None (c_cols ex_cat) = Some [Fin 1; Fin 2] /\ dget (c_cols ex_cat) "dmc" = None.
Proof. split; [exact xr_argsort_ok|]. split; [reflexivity|]. split; [apply C34_example|]. split; [apply C34_example|]. split; reflexivity. Qed.
