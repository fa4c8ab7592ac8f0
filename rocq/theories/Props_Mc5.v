(** * C86 for every one-valued sample *)
From Coq Require Import ZArith List Bool Lia Reals Lra Permutation Sorted.
From Verif Require Import Base Num XR RList SortLib Binning_model Binning_proofs Fmd_proofs BValue_model Simulate_model Mc_model Spec_Mc Props_Mc2.
Import ListNotations.
Open Scope R_scope.

(** With warnings on no test is done: p-value 0, distance 1, no distances.  With warnings off
    a test is done: if it gives a result, the distances it used are returned, so that the two
    results always differ. *)
Theorem C86_every_single_value_refuted : forall u e mags v mc delta b n ks_ds weights, mags <> [] -> (forall m, In m mags -> m = v) ->
  ks_test_gr u e true (map Fin mags) (Fin mc) delta (Fin b) n ks_ds weights = Ok (Fin 0, Fin 1, []) /\
  forall p d ds, ks_test_gr u e false (map Fin mags) (Fin mc) delta (Fin b) n ks_ds weights = Ok (p, d, ds) ->
    ds <> [] /\ (forall given, ks_ds = Some given -> ds = given) /\ (ks_ds = None -> length ds = n).
Proof.
  intros u e mags v mc delta b n ks_ds weights Hne Hv. split.
  - unfold ks_test_gr. destruct mags as [|m mags]; [congruence|]. cbn [map]. unfold np_min. cbn [rbind].
    assert (L : length (np_unique (Fin m :: map Fin mags)) = 1%nat).
    { change (Fin m :: map Fin mags) with (map Fin (m :: mags)). rewrite np_unique_fin, map_length.
      pose proof (uniqR_in (m :: mags)) as U. pose proof (uniqR_sorted (m :: mags)) as Sd.
      destruct (uniqR (m :: mags)) as [|a [|c l]]; [destruct (proj2 (U m) (or_introl eq_refl))|reflexivity|].
      assert (a = v) by (apply Hv, U; left; reflexivity). assert (c = v) by (apply Hv, U; right; left; reflexivity).
      inversion Sd as [|? ? _ F]; subst. inversion F; subst. lra. }
    rewrite L. reflexivity.
  - intros p d ds. unfold ks_test_gr. destruct ks_ds as [given|].
    + destruct (np_max _) as [top|]; cbn [rbind]; [|discriminate]. destruct (ks_bins _ _ _ _) as [bins|]; cbn [rbind]; [|discriminate].
      destruct (ks_distance _ _ _) as [d'|]; cbn [rbind]; [|discriminate]. unfold ks_p. destruct given as [|g given]; [discriminate|]. cbn [rbind].
      intros E. injection E as _ _ <-. split; [discriminate|]. split; [intros g' [= <-]; reflexivity|discriminate].
    + destruct (ks_bins _ _ _ _) as [bins|]; cbn [rbind]; [|discriminate]. destruct (mapM _ (seq 0 n)) as [ks|] eqn:Em; cbn [rbind]; [|discriminate].
      destruct (ks_distance _ _ _) as [d'|]; cbn [rbind]; [|discriminate]. unfold ks_p. destruct ks as [|g ks]; [discriminate|]. cbn [rbind].
      intros E. assert (ds = g :: ks) by congruence. subst ds. split; [discriminate|]. split; [discriminate|]. intros _.
      rewrite <- (seq_length n 0). clear E. revert Em. generalize (g :: ks) (seq 0 n). intros l s. revert l. induction s as [|i s IH]; intros l; cbn [mapM].
      * intros [= <-]. reflexivity.
      * match goal with |- context [rbind ?a _] => destruct a; cbn [rbind]; [|discriminate] end. destruct (mapM _ s) as [r|]; cbn [rbind]; [|discriminate].
        intros [= <-]. cbn [length]. f_equal. apply IH. reflexivity.
Qed.
Print Assumptions C86_every_single_value_refuted.
