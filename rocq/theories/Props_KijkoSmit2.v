(** * C189: the warning of Kijko and Smit's estimator *)
From Coq Require Import Reals Lra List Lia ZArith Bool String.
From Verif Require Import Base Num XR RList BValue_model Periods_model Spec_Periods Periods_proofs Props_KijkoSmit.
Import ListNotations.
Open Scope R_scope.

Lemma period_of_in tb y r : period_of tb y = Some r -> In r tb.
Proof.
  induction tb as [|q tb IH]; cbn [period_of]; [discriminate|].
  repeat match goal with |- context [if ?b then _ else _] => destruct b end; intros H; try (injection H as <-; left; reflexivity); right; apply IH; exact H.
Qed.
(** A warning is issued exactly if warnings are switched on and some magnitude lies below every
    magnitude of the completeness table; and such events are never used. *)
Theorem C189_warning : forall w (ev tb : list (R * R)), tb <> [] ->
  (warns w (map Fin (map fst ev)) (map emb tb) = true <-> w = true /\ exists e, In e ev /\ forall r, In r tb -> fst e < fst r) /\
  (forall e, In e ev -> (forall r, In r tb -> fst e < fst r) -> forall r, ~ In (e, r) (used tb ev)).
Proof.
  intros w ev tb Ht. split.
  - unfold warns. destruct tb as [|r0 tb]; [congruence|]. cbn [map emb fst]. rewrite andb_true_iff, negb_true_iff.
    assert (E : map fst (map emb tb) = map Fin (map fst tb)) by (rewrite !map_map; reflexivity). rewrite E, x_amin. set (c := Rminl (fst r0) (map fst tb)).
    assert (K : forallb (fun m => nleb (Fin c) m) (map Fin (map fst ev)) = false <-> exists e, In e ev /\ fst e < c).
    { induction ev as [|e ev IH]; [cbn; split; [discriminate|intros (e & [] & _)]|]. cbn [map forallb]. rewrite andb_false_iff, IH, x_leb. split.
      - intros [H|(e' & He & H)]; [exists e; split; [left; reflexivity|]; revert H; unfold rle; destruct (Rle_dec c (fst e)); [discriminate|lra]|exists e'; split; [right; exact He|exact H]].
      - intros (e' & [<-|He] & H); [left; unfold rle; destruct (Rle_dec c (fst e)); [lra|reflexivity]|right; exists e'; auto]. }
    rewrite K. split; intros [Hw (e & He & H)]; (split; [exact Hw|]); exists e; (split; [exact He|]).
    + intros r Hr. apply Rlt_le_trans with c; [exact H|]. apply Rminl_le. destruct Hr as [<-|Hr]; [left; reflexivity|right; apply in_map; exact Hr].
    + destruct (Rminl_in (fst r0) (map fst tb)) as [Hc|Hc]; fold c in Hc; [rewrite <- Hc; apply H; left; reflexivity|]. apply in_map_iff in Hc. destruct Hc as (r & <- & Hr). apply H. right. exact Hr.
  - intros e _ H r Hin. unfold used in Hin. apply in_flat_map in Hin. destruct Hin as (e' & _ & Hin). unfold used_of in Hin. destruct (period_of tb (snd e')) as [q|] eqn:P; [|destruct Hin]. apply period_of_in in P.
    destruct (Rlt_dec (fst q) (fst e')) as [L|L]; [|destruct Hin]. destruct Hin as [[= -> ->]|[]]. specialize (H r P). lra.
Qed.
Print Assumptions C189_warning.
Example C189_case : warns true (map Fin (map fst [(3, 1990); (5, 1990)])) (map emb [(4, 1980); (6, 1920)]) = true /\ warns true (map Fin (map fst [(5, 1930); (5, 1990)])) (map emb [(4, 1980); (6, 1920)]) = false.
Proof.
  split.
  - apply (proj1 (C189_warning true [(3, 1990); (5, 1990)] [(4, 1980); (6, 1920)] ltac:(discriminate))). split; [reflexivity|]. exists (3, 1990). split; [left; reflexivity|]. intros r [<-|[<-|[]]]; cbn; lra.
  - destruct (warns _ _ _) eqn:E; [|reflexivity]. apply (proj1 (C189_warning true [(5, 1930); (5, 1990)] [(4, 1980); (6, 1920)] ltac:(discriminate))) in E. destruct E as [_ (e & He & H)]. specialize (H (4, 1980) (or_introl eq_refl)). destruct He as [<-|[<-|[]]]; cbn in H; lra.
Qed.
