(** * C191: the rectangle behind the mask of a country; C63: arrays of coordinates *)
From Coq Require Import Reals Lra Lia ZArith List Bool.
From Verif Require Import Base Num XR RList Utils_model Plots_model Spec_Plots Props_Plots Props_Coordinates Props_TimePlots Props_TimePlots2.
Import ListNotations.
Open Scope R_scope.

(** twice the signed area of the triangle p1 p2 q: positive if q lies left of the way from p1 to p2 *)
Definition cross (p1 p2 q : R * R) : R := (fst p2 - fst p1) * (snd q - snd p1) - (snd p2 - snd p1) * (fst q - fst p1).
(** the edges of a closed polygon *)
Definition edges (v : list (R * R)) : list ((R * R) * (R * R)) := combine v (tl v ++ firstn 1 v).
(** a convex polygon, its vertices anticlockwise, contains q *)
Definition convex_contains (v : list (R * R)) (q : R * R) : Prop := forall e, In e (edges v) -> 0 <= cross (fst e) (snd e) q.
(** Gauss's area formula *)
Definition area2 (v : list (R * R)) : R := fold_right Rplus 0 (map (fun e => fst (fst e) * snd (snd e) - fst (snd e) * snd (fst e)) (edges v)).
Definition finv (p : R * R) : xr * xr := (Fin (fst p), Fin (snd p)).

(** the rectangle made for a box is that box: the same points, the same area, convex and
    anticlockwise *)
Theorem C191_rectangle : forall w e s n, w < e -> s < n ->
  exists v, rect_from_bound (Fin w) (Fin e) (Fin s) (Fin n) = map finv v /\
    (forall q, convex_contains v q <-> inside (w, e, s, n) q) /\ area2 v = 2 * ((e - w) * (n - s)) /\
    (forall a b c d, v = [a; b; c; d] -> 0 < cross a b c /\ 0 < cross b c d /\ 0 < cross c d a /\ 0 < cross d a b).
Proof.
  intros w e s n H1 H2. exists [(e, n); (w, n); (w, s); (e, s)]. split; [reflexivity|]. split; [|split].
  - intros [x y]. unfold convex_contains, edges. cbn [tl app firstn combine In inside fst snd]. unfold cross. split.
    + intros H. pose proof (H _ (or_introl eq_refl)) as A1. pose proof (H _ (or_intror (or_introl eq_refl))) as A2.
      pose proof (H _ (or_intror (or_intror (or_introl eq_refl)))) as A3. pose proof (H _ (or_intror (or_intror (or_intror (or_introl eq_refl))))) as A4.
      cbn [fst snd] in *. repeat split; nra.
    + intros [A B] p [<-|[<-|[<-|[<-|[]]]]]; cbn [fst snd]; nra.
  - unfold area2, edges. cbn [tl app firstn combine map fold_right fst snd]. ring.
  - intros a b c d [= <- <- <- <-]. unfold cross. cbn [fst snd]. repeat split; nra.
Qed.
Print Assumptions C191_rectangle.
(** the map of a country: the masked rectangle is the extent of the map, contains the bounding box of
    the country and leaves a margin of 5 % of its extension on every side *)
Theorem C191_country : forall w s e n, w < e -> s < n ->
  exists b v, country_extent (Fin w, Fin s, Fin e, Fin n) = finb b /\
    (let '(x0, x1, y0, y1) := b in rect_from_bound (Fin x0) (Fin x1) (Fin y0) (Fin y1) = map finv v) /\
    (forall q, convex_contains v q <-> inside b q) /\
    (forall q, w - (e - w) * 0.05 <= fst q <= e + (e - w) * 0.05 -> s - (n - s) * 0.05 <= snd q <= n + (n - s) * 0.05 -> convex_contains v q) /\
    area2 v = 2 * (1.1 * (e - w) * (1.1 * (n - s))).
Proof.
  intros w s e n H1 H2. rewrite C131_country by lra.
  set (w' := w - (e - w) * 0.05). set (e' := e + (e - w) * 0.05). set (s' := s - (n - s) * 0.05). set (n' := n + (n - s) * 0.05).
  assert (K1 : w' < e') by (unfold w', e'; lra). assert (K2 : s' < n') by (unfold s', n'; lra).
  destruct (C191_rectangle w' e' s' n' K1 K2) as (v & E & I & A & _). exists (w', e', s', n'), v. split; [reflexivity|]. split; [exact E|]. split; [exact I|]. split.
  - intros q Q1 Q2. apply I. split; assumption.
  - rewrite A. unfold w', e', s', n'. replace 0.05 with (1 / 20) by lra. replace 1.1 with (11 / 10) by lra. field.
Qed.
Print Assumptions C191_country.
Example C191_case : exists v, rect_from_bound (Fin 5) (Fin 10) (Fin 45) (Fin 48) = map finv v /\ convex_contains v (8, 47) /\ ~ convex_contains v (4, 47).
Proof.
  destruct (C191_rectangle 5 10 45 48 ltac:(lra) ltac:(lra)) as (v & E & I & _). exists v. split; [exact E|]. rewrite !I. cbn. split; [lra|intros [H _]; lra].
Qed.

(** ** C63: arrays of coordinates are transformed element by element, so that each one is recovered *)
Theorem C63_arrays : forall CRS (pr : CRS -> CRS -> R -> R -> option R -> R * R * option R) project, computes pr project -> keeps_altitude pr ->
  forall re rn ra local ext (l : list (R * R * option R)), Forall (inverse_at pr ext local) l ->
  length (to_local_list project (tr_at re rn ra local ext) (map finp l)) = length l /\
  map (fun p => let '(x, y, z) := p in from_local_coords project (tr_at re rn ra local ext) x y z) (to_local_list project (tr_at re rn ra local ext) (map finp l)) = map finp l.
Proof.
  intros CRS pr project Hp Hk re rn ra local ext l H. unfold to_local_list. split; [rewrite !map_length; reflexivity|].
  rewrite !map_map. induction H as [|[[x y] z] l Hx _ IH]; [reflexivity|]. cbn [map]. f_equal; [|exact IH].
  pose proof (C63_external_round_trip pr project Hp Hk re rn ra local ext x y z Hx) as R. cbn [finp].
  destruct (to_local_coords project _ (Fin x) (Fin y) (finz z)) as [[e n] a]. exact R.
Qed.
Print Assumptions C63_arrays.
