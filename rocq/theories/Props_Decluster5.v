(** * C47: the clusters are determined by the windows; C233: shifting the times *)
From Coq Require Import ZArith List Bool Lia Reals Lra.
From Verif Require Import Base Num XR Decluster_model Spec_Decluster Props_Decluster Props_Sphere Props_Windows Props_Decluster2.
Import ListNotations.
Open Scope R_scope.

Lemma earlier_total mag time i j : i = j \/ earlier mag time i j \/ earlier mag time j i.
Proof.
  unfold earlier. destruct (Rtotal_order (mag i) (mag j)) as [H|[H|H]]; [right; right; left; exact H| |right; left; left; lra].
  destruct (Rtotal_order (time i) (time j)) as [K|[K|K]]; [right; left; right; split; [lra|left; lra]| |right; right; right; split; [lra|left; lra]].
  destruct (Nat.lt_trichotomy i j) as [L|[L|L]]; [right; left; right; split; [lra|right; split; [lra|exact L]]|left; exact L|right; right; right; split; [lra|right; split; [lra|exact L]]].
Qed.
(** the description [gk_clusters] determines which events are in the same cluster *)
Theorem C47_clusters_unique : forall n mag time covers main c c',
  gk_clusters n (earlier mag time) covers main c -> gk_clusters n (earlier mag time) covers main c' ->
  forall i j, (i < n)%nat -> (j < n)%nat -> (c i = c j <-> c' i = c' j).
Proof.
  intros n mag time cov main c c' [H1 H2] [H1' H2'] i j Hi Hj.
  assert (K : forall i, (i < n)%nat -> exists m, (m < n)%nat /\ main m /\ c m = c i /\ c' m = c' i).
  { intros a Ha. destruct (H1 a Ha) as (m & A1 & A2 & A3 & _ & A5 & A6), (H1' a Ha) as (m' & B1 & B2 & B3 & _ & B5 & B6).
    assert (m = m'). { destruct (earlier_total mag time m m') as [E|[E|E]]; [exact E|exfalso; exact (B6 m A1 A2 E A5)|exfalso; exact (A6 m' B1 B2 E B5)]. }
    subst m'. exists m. auto. }
  destruct (K i Hi) as (m & A1 & A2 & A3 & A4), (K j Hj) as (m' & B1 & B2 & B3 & B4). rewrite <- A3, <- A4, <- B3, <- B4. split; intros E.
  - f_equal. apply H2; assumption.
  - f_equal. apply H2'; assumption.
Qed.
Print Assumptions C47_clusters_unique.

Lemma seconds_shift t (z : Z) : seconds (t + IZR z) = seconds t + IZR z.
Proof.
  unfold seconds. rewrite <- plus_IZR. f_equal. destruct (base_Int_part t) as [A B]. symmetry. rewrite <- (Int_part_unique (t + IZR z) (Int_part t + z)); [reflexivity|]. rewrite plus_IZR. lra.
Qed.
(** Shifting all times by the same whole number of seconds changes neither the mainshocks nor
    which events belong together. *)
Theorem C233_time_shift : forall n time mag lon lat fs k cutoff z,
  0 <= fs -> (forall i, (i < n)%nat -> usable k (mag i)) -> (forall c, cutoff = Some c -> 0 < c) ->
  exists flags c c',
    decluster haversine (windows k (option_map Fin cutoff)) (Fin fs) (catalogue n time mag lon lat) = Ok (flags, map c (seq 0 n)) /\
    decluster haversine (windows k (option_map Fin cutoff)) (Fin fs) (catalogue n (fun i => time i + IZR z) mag lon lat) = Ok (flags, map c' (seq 0 n)) /\
    (forall i j, (i < n)%nat -> (j < n)%nat -> (c i = c j <-> c' i = c' j)).
Proof.
  intros n time mag lon lat fs k cutoff z Hfs U Hc.
  destruct (C47_package_windows n time mag lon lat fs k cutoff Hfs U Hc) as (f & c & E & F & G).
  destruct (C47_package_windows n (fun i => time i + IZR z) mag lon lat fs k cutoff Hfs U Hc) as (f' & c' & E' & F' & G'). cbv zeta in *.
  set (cov := covers distance time lon lat (fun i => sw k (mag i)) (fun i => time_limit k cutoff (mag i)) fs) in *.
  set (cov' := covers distance (fun i => time i + IZR z) lon lat (fun i => sw k (mag i)) (fun i => time_limit k cutoff (mag i)) fs) in *.
  assert (C : forall i j, cov' i j <-> cov i j).
  { intros i j. unfold cov, cov', covers. rewrite !seconds_shift. replace (seconds (time j) + IZR z - (seconds (time i) + IZR z)) with (seconds (time j) - seconds (time i)) by lra. tauto. }
  assert (B : forall i j, earlier mag (fun i => time i + IZR z) i j <-> earlier mag time i j) by (intros i j; unfold earlier; split; (intros [H|(H1 & [H|(H & H2)])]; [left; exact H|right; split; [exact H1|left; lra]|right; split; [exact H1|right; split; [lra|exact H2]]])).
  assert (F2 : gk_flags n (earlier mag time) cov (fun i => f' i = true)).
  { intros i Hi. rewrite (F' i Hi). split; intros H j Hj He Hm Hv; apply (H j Hj); try assumption; try (apply B; assumption); apply C; assumption. }
  assert (S : forall i, (i < n)%nat -> (f' i = true <-> f i = true)) by (apply (C47_flags_unique n mag time cov (fun i => f' i = true) (fun i => f i = true)); assumption).
  assert (G2 : gk_clusters n (earlier mag time) cov (fun i => f i = true) c').
  { destruct G' as [G1 G2]. split.
    - intros i Hi. destruct (G1 i Hi) as (m & A1 & A2 & A3 & A4 & A5 & A6). exists m. split; [exact A1|]. split; [apply S; assumption|]. split; [exact A3|].
      split; [destruct A4 as [A4|A4]; [left; exact A4|right; apply B; exact A4]|]. split; [apply C; exact A5|].
      intros m' B1 B2 B3 B4. apply (A6 m' B1); [apply S; assumption|apply B; exact B3|apply C; exact B4].
    - intros m m' A1 A2 A3 A4. apply G2; try assumption; apply S; assumption. }
  exists (map f (seq 0 n)), c, c'. split; [exact E|]. split.
  - rewrite E'. f_equal. f_equal. apply map_ext_in. intros i Hi. apply in_seq in Hi. specialize (S i ltac:(lia)). destruct (f' i), (f i); intuition congruence.
  - apply (C47_clusters_unique n mag time cov (fun i => f i = true)); assumption.
Qed.
Print Assumptions C233_time_shift.
Example C233_case : exists flags c c', decluster haversine (windows Gruenthal None) (Fin 1) (catalogue 2 (fun i => INR i) (fun i => INR i) (fun _ => 8) (fun _ => 47)) = Ok (flags, map c (seq 0 2)) /\
  decluster haversine (windows Gruenthal None) (Fin 1) (catalogue 2 (fun i => INR i + IZR 3600) (fun i => INR i) (fun _ => 8) (fun _ => 47)) = Ok (flags, map c' (seq 0 2)) /\
  (forall i j, (i < 2)%nat -> (j < 2)%nat -> (c i = c j <-> c' i = c' j)).
Proof. apply (C233_time_shift 2 (fun i => INR i) (fun i => INR i) (fun _ => 8) (fun _ => 47) 1 Gruenthal None 3600); [lra|intros i _; cbn; pose proof (pos_INR i); lra|discriminate]. Qed.
