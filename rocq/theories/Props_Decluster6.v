(** * C95: the clusters and the row order; C234: moving all epicentres *)
From Coq Require Import ZArith List Bool Lia Reals Lra.
From Verif Require Import Base Num XR Decluster_model Spec_Decluster Spec_Sphere Props_Decluster Props_Sphere Props_Windows Props_Decluster2 Props_Decluster5.
Import ListNotations.
Open Scope R_scope.

(** two descriptions over the same events, whose coverage agrees on the events *)
Lemma same_clusters n mag time cov cov' main main' c c' :
  (forall i j, (i < n)%nat -> (j < n)%nat -> (cov' i j <-> cov i j)) ->
  gk_flags n (earlier mag time) cov main -> gk_clusters n (earlier mag time) cov main c ->
  gk_flags n (earlier mag time) cov' main' -> gk_clusters n (earlier mag time) cov' main' c' ->
  (forall i, (i < n)%nat -> (main' i <-> main i)) /\
  (forall i j, (i < n)%nat -> (j < n)%nat -> (c i = c j <-> c' i = c' j)).
Proof.
  intros C F G F' [G1 G2].
  assert (F2 : gk_flags n (earlier mag time) cov main').
  { intros i Hi. rewrite (F' i Hi). split; intros H j Hj He Hm Hv; apply (H j Hj); try assumption; apply C; assumption. }
  assert (A : forall i, (i < n)%nat -> (main' i <-> main i)) by (apply (C47_flags_unique n mag time cov); assumption).
  split; [exact A|]. apply (C47_clusters_unique n mag time cov main); [exact G|]. split.
  - intros i Hi. destruct (G1 i Hi) as (m & A1 & A2 & A3 & A4 & A5 & A6). exists m. split; [exact A1|]. split; [apply A; assumption|]. split; [exact A3|]. split; [exact A4|].
    split; [apply C; assumption|]. intros m' B1 B2 B3 B4. apply (A6 m' B1); [apply A; assumption|exact B3|apply C; assumption].
  - intros m m' A1 A2 A3 A4. apply G2; try assumption; apply A; assumption.
Qed.

(** C234: only the great-circle angles between the epicentres matter *)
Theorem C234_moved_epicentres : forall n time mag lon lat lon' lat' fs k cutoff,
  0 <= fs -> (forall i, (i < n)%nat -> usable k (mag i)) -> (forall c, cutoff = Some c -> 0 < c) ->
  (forall i j t, (i < n)%nat -> (j < n)%nat ->
     is_angle t (sphere (lon i) (lat i)) (sphere (lon j) (lat j)) -> is_angle t (sphere (lon' i) (lat' i)) (sphere (lon' j) (lat' j))) ->
  exists flags c c',
    decluster haversine (windows k (option_map Fin cutoff)) (Fin fs) (catalogue n time mag lon lat) = Ok (flags, map c (seq 0 n)) /\
    decluster haversine (windows k (option_map Fin cutoff)) (Fin fs) (catalogue n time mag lon' lat') = Ok (flags, map c' (seq 0 n)) /\
    (forall i j, (i < n)%nat -> (j < n)%nat -> (c i = c j <-> c' i = c' j)).
Proof.
  intros n time mag lon lat lon' lat' fs k cutoff Hfs U Hc Hd.
  destruct (C47_package_windows n time mag lon lat fs k cutoff Hfs U Hc) as (f & c & E & F & G).
  destruct (C47_package_windows n time mag lon' lat' fs k cutoff Hfs U Hc) as (f' & c' & E' & F' & G'). cbv zeta in *.
  assert (D : forall i j, (i < n)%nat -> (j < n)%nat -> distance (lon' i) (lat' i) (lon' j) (lat' j) = distance (lon i) (lat i) (lon j) (lat j)).
  { intros i j Hi Hj. destruct (distance_angle (lon i) (lat i) (lon j) (lat j)) as (t & A & ->), (distance_angle (lon' i) (lat' i) (lon' j) (lat' j)) as (t' & A' & ->).
    rewrite (angle_unique _ _ _ _ A' (Hd i j t Hi Hj A)). reflexivity. }
  destruct (same_clusters n mag time (covers distance time lon lat (fun i => sw k (mag i)) (fun i => time_limit k cutoff (mag i)) fs)
              (covers distance time lon' lat' (fun i => sw k (mag i)) (fun i => time_limit k cutoff (mag i)) fs)
              (fun i => f i = true) (fun i => f' i = true) c c') as [A B]; try assumption.
  { intros i j Hi Hj. unfold covers. rewrite (D j i), ?(D i j) by assumption. tauto. }
  exists (map f (seq 0 n)), c, c'. split; [exact E|]. split; [|exact B].
  rewrite E'. f_equal. f_equal. apply map_ext_in. intros i Hi. apply in_seq in Hi. specialize (A i ltac:(lia)). destruct (f' i), (f i); intuition congruence.
Qed.
Print Assumptions C234_moved_epicentres.
(** for example when every longitude is turned by the same angle (across the date line) *)
Theorem C234_longitude_shift : forall n time mag lon lat turn fs k cutoff,
  0 <= fs -> (forall i, (i < n)%nat -> usable k (mag i)) -> (forall c, cutoff = Some c -> 0 < c) ->
  exists flags c c',
    decluster haversine (windows k (option_map Fin cutoff)) (Fin fs) (catalogue n time mag lon lat) = Ok (flags, map c (seq 0 n)) /\
    decluster haversine (windows k (option_map Fin cutoff)) (Fin fs) (catalogue n time mag (fun i => lon i + turn) lat) = Ok (flags, map c' (seq 0 n)) /\
    (forall i j, (i < n)%nat -> (j < n)%nat -> (c i = c j <-> c' i = c' j)).
Proof.
  intros n time mag lon lat turn fs k cutoff Hfs U Hc. apply C234_moved_epicentres; try assumption.
  intros i j t _ _ [B H]. split; [exact B|]. rewrite H. unfold sphere, dot3, rad. cbv beta.
  replace (PI / 180 * (lon i + turn)) with (PI / 180 * lon i + PI / 180 * turn) by ring.
  replace (PI / 180 * (lon j + turn)) with (PI / 180 * lon j + PI / 180 * turn) by ring.
  generalize (PI / 180 * lon i) (PI / 180 * lon j) (PI / 180 * turn) (PI / 180 * lat i) (PI / 180 * lat j). intros a b w p q.
  rewrite !cos_plus, !sin_plus. pose proof (sin2_cos2 w) as W. unfold Rsqr in W.
  transitivity (cos p * cos q * (cos a * cos b + sin a * sin b) * (sin w * sin w + cos w * cos w) + sin p * sin q); [rewrite W|]; ring.
Qed.
Print Assumptions C234_longitude_shift.
Example C234_case : exists flags c c', decluster haversine (windows Gruenthal None) (Fin 1) (catalogue 2 (fun i => INR i) (fun i => INR i) (fun _ => 179) (fun _ => 47)) = Ok (flags, map c (seq 0 2)) /\
  decluster haversine (windows Gruenthal None) (Fin 1) (catalogue 2 (fun i => INR i) (fun i => INR i) (fun _ => 179 + 2) (fun _ => 47)) = Ok (flags, map c' (seq 0 2)) /\
  (forall i j, (i < 2)%nat -> (j < 2)%nat -> (c i = c j <-> c' i = c' j)).
Proof. apply (C234_longitude_shift 2 (fun i => INR i) (fun i => INR i) (fun _ => 179) (fun _ => 47) 2 1 Gruenthal None); [lra|intros i _; cbn; pose proof (pos_INR i); lra|discriminate]. Qed.

(** C95: the partition into clusters moves with the rows *)
Theorem C95_clusters : forall n time mag lon lat sw tw fs dist distR s,
  (forall a b c d, dist (Fin a) (Fin b) (Fin c) (Fin d) = Fin (distR a b c d)) ->
  (forall a b, distR a b a b = 0) ->
  0 <= fs -> (forall m, 0 <= sw m /\ 0 <= tw m) ->
  (* s permutes the rows; no two events have the same magnitude and time *)
  (forall i, (i < n)%nat -> (s i < n)%nat) -> (forall i j, (i < n)%nat -> (j < n)%nat -> s i = s j -> i = j) ->
  (forall i, (i < n)%nat -> exists j, (j < n)%nat /\ s j = i) ->
  (forall i j, (i < n)%nat -> (j < n)%nat -> mag i = mag j -> time i = time j -> i = j) ->
  forall window, (forall g, (forall i, (i < n)%nat -> exists j, (j < n)%nat /\ g i = mag j) -> window (map (fun i => Fin (g i)) (seq 0 n)) = (map (fun i => Fin (sw (g i))) (seq 0 n), map (fun i => Fin (tw (g i))) (seq 0 n))) ->
  exists flag c c',
    decluster dist window (Fin fs) (catalogue n time mag lon lat) = Ok (map flag (seq 0 n), map c (seq 0 n)) /\
    decluster dist window (Fin fs) (catalogue n (fun i => time (s i)) (fun i => mag (s i)) (fun i => lon (s i)) (fun i => lat (s i))) = Ok (map (fun i => flag (s i)) (seq 0 n), map c' (seq 0 n)) /\
    (forall i j, (i < n)%nat -> (j < n)%nat -> (c' i = c' j <-> c (s i) = c (s j))).
Proof.
  intros n time mag lon lat sw tw fs dist distR s Hd H0 Hfs Hpos Hs1 Hs2 Hs3 Hdis window Hw.
  destruct (C47_gardner_knopoff n time mag lon lat (fun i => sw (mag i)) (fun i => tw (mag i)) fs dist distR window Hd H0 Hfs (fun i _ => Hpos (mag i)) (Hw mag (fun i Hi => ex_intro _ i (conj Hi eq_refl)))) as (f & c & E & F & [G1 G2]).
  destruct (C47_gardner_knopoff n (fun i => time (s i)) (fun i => mag (s i)) (fun i => lon (s i)) (fun i => lat (s i)) (fun i => sw (mag (s i))) (fun i => tw (mag (s i))) fs dist distR window Hd H0 Hfs (fun i _ => Hpos (mag (s i))) (Hw (fun i => mag (s i)) (fun i Hi => ex_intro _ (s i) (conj (Hs1 i Hi) eq_refl)))) as (f' & c' & E' & F' & G').
  set (before' := earlier (fun i => mag (s i)) (fun i => time (s i))) in *.
  set (cov := covers distR time lon lat (fun i => sw (mag i)) (fun i => tw (mag i)) fs) in *.
  set (cov' := covers distR (fun i => time (s i)) (fun i => lon (s i)) (fun i => lat (s i)) (fun i => sw (mag (s i))) (fun i => tw (mag (s i))) fs) in *.
  assert (C : forall i j, cov' i j <-> cov (s i) (s j)) by (intros i j; unfold cov, cov', covers; tauto).
  assert (B : forall i j, (i < n)%nat -> (j < n)%nat -> (before' j i <-> earlier mag time (s j) (s i))).
  { intros a j Ha Hj. unfold before', earlier. split.
    - intros [He|(E1 & [He|(E2 & He)])]; [left; exact He|right; auto|]. exfalso. assert (s j = s a) by (apply Hdis; auto). assert (j = a) by auto. lia.
    - intros [He|(E1 & [He|(E2 & He)])]; [left; exact He|right; auto|]. exfalso. assert (s j = s a) by (apply Hdis; auto). lia. }
  assert (F2 : gk_flags n before' cov' (fun i => f (s i) = true)).
  { intros a Ha. rewrite (F (s a) (Hs1 a Ha)). split.
    - intros K j Hj He Hm Hv. apply (K (s j)); [auto|apply B; assumption|exact Hm|apply C; exact Hv].
    - intros K j Hj He Hm Hv. destruct (Hs3 j Hj) as (b & Hb & <-). apply (K b Hb); [apply B; assumption|exact Hm|apply C; exact Hv]. }
  assert (G3 : gk_clusters n before' cov' (fun i => f (s i) = true) (fun i => c (s i))).
  { split.
    - intros a Ha. destruct (G1 (s a) (Hs1 a Ha)) as (m & A1 & A2 & A3 & A4 & A5 & A6). destruct (Hs3 m A1) as (b & Hb & <-). exists b. split; [exact Hb|]. split; [exact A2|]. split; [exact A3|].
      split; [destruct A4 as [A4|A4]; [left; auto|right; apply B; assumption]|]. split; [apply C; exact A5|].
      intros m' B1 B2 B3 B4. apply (A6 (s m')); [auto|exact B2|apply B; assumption|apply C; exact B4].
    - intros m m' A1 A2 A3 A4 A5. apply Hs2; auto. }
  destruct (same_clusters n (fun i => mag (s i)) (fun i => time (s i)) cov' cov' (fun i => f (s i) = true) (fun i => f' i = true) (fun i => c (s i)) c' ltac:(tauto) F2 G3 F' G') as [P Q].
  exists f, c, c'. split; [exact E|]. split.
  - rewrite E'. f_equal. f_equal. apply map_ext_in. intros i Hi. apply in_seq in Hi. specialize (P i ltac:(lia)). destruct (f' i), (f (s i)); intuition congruence.
  - intros i j Hi Hj. symmetry. apply Q; assumption.
Qed.
Print Assumptions C95_clusters.
