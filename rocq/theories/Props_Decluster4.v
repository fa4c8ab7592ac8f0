(** * C232: declustering the mainshocks again changes nothing *)
From Coq Require Import ZArith List Bool Lia Reals Lra Sorted.
From Verif Require Import Base Num XR Decluster_model Spec_Decluster Props_Decluster Props_Sphere Props_Windows Props_Decluster2.
Import ListNotations.
Open Scope R_scope.

(** the positions of the mainshocks, in the order of the catalogue *)
Definition mainshocks (n : nat) (flag : nat -> bool) : list nat := filter flag (seq 0 n).
(** the n events of a catalogue at the positions [l], with a new default index *)
Definition chosen (l : list nat) (f : nat -> R) (i : nat) : R := f (nth i l 0%nat).

Lemma sorted_nth l : StronglySorted lt l -> forall i j, (i < j)%nat -> (j < length l)%nat -> (nth i l 0 < nth j l 0)%nat.
Proof.
  induction 1 as [|a l H IH F]; intros i j Hij Hj; [cbn in Hj; lia|]. destruct j as [|j]; [lia|]. cbn [length] in Hj. destruct i as [|i]; cbn [nth].
  - rewrite Forall_forall in F. apply F, nth_In. lia.
  - apply IH; lia.
Qed.
Lemma seq_sorted k : forall a, StronglySorted lt (seq a k).
Proof. induction k as [|k IH]; intros a; [constructor|]. cbn. constructor; [apply IH|]. apply Forall_forall. intros x Hx. apply in_seq in Hx. lia. Qed.
Lemma filter_sorted (f : nat -> bool) l : StronglySorted lt l -> StronglySorted lt (filter f l).
Proof.
  induction 1 as [|a l H IH F]; [constructor|]. cbn. destruct (f a); [|exact IH]. constructor; [exact IH|]. rewrite Forall_forall in *. intros x Hx. apply filter_In in Hx. apply F, Hx.
Qed.
Lemma nodup_map_seq (c : nat -> nat) k : (forall i j, (i < k)%nat -> (j < k)%nat -> c i = c j -> i = j) -> NoDup (map c (seq 0 k)).
Proof.
  intros H. assert (G : forall l, NoDup l -> (forall x, In x l -> (x < k)%nat) -> NoDup (map c l)).
  { induction 1 as [|x l N D IH]; intros B; [constructor|]. cbn. constructor; [|apply IH; intros y Hy; apply B; right; exact Hy].
    intros Q. apply in_map_iff in Q. destruct Q as (y & E & Hy). assert (y = x) by (apply H; [apply B; right; exact Hy|apply B; left; reflexivity|exact E]). subst. contradiction. }
  apply G; [apply seq_NoDup|]. intros x Hx. apply in_seq in Hx. lia.
Qed.

(** With the windows and the distance of the package: if the mainshocks of a catalogue are kept,
    get a new index and are declustered again, all of them are mainshocks again, each in a cluster
    of its own. *)
Theorem C232_mainshocks_stay : forall n time mag lon lat fs k cutoff,
  0 <= fs -> (forall i, (i < n)%nat -> usable k (mag i)) -> (forall c, cutoff = Some c -> 0 < c) ->
  exists flag cluster cluster',
    decluster haversine (windows k (option_map Fin cutoff)) (Fin fs) (catalogue n time mag lon lat) = Ok (map flag (seq 0 n), cluster) /\
    let l := mainshocks n flag in
    decluster haversine (windows k (option_map Fin cutoff)) (Fin fs) (catalogue (length l) (chosen l time) (chosen l mag) (chosen l lon) (chosen l lat)) = Ok (repeat true (length l), cluster') /\
    length cluster' = length l /\ NoDup cluster'.
Proof.
  intros n time mag lon lat fs k cutoff Hfs U Hc.
  destruct (C47_package_windows n time mag lon lat fs k cutoff Hfs U Hc) as (flag & cluster & E & F & _). cbv zeta in E, F.
  set (l := mainshocks n flag).
  assert (Hl : forall i, (i < length l)%nat -> (nth i l 0 < n)%nat /\ flag (nth i l 0%nat) = true).
  { intros i Hi. pose proof (nth_In l 0%nat Hi) as Q. apply filter_In in Q. destruct Q as [Q1 Q2]. apply in_seq in Q1. split; [lia|exact Q2]. }
  destruct (C47_package_windows (length l) (chosen l time) (chosen l mag) (chosen l lon) (chosen l lat) fs k cutoff Hfs) as (flag' & cluster' & E' & F' & G'); [intros i Hi; apply U, Hl, Hi|exact Hc|]. cbv zeta in E', F', G'.
  assert (Hs : forall i j, (i < j)%nat -> (j < length l)%nat -> (nth i l 0 < nth j l 0)%nat) by (apply sorted_nth, filter_sorted, seq_sorted).
  assert (Hall : forall i, (i < length l)%nat -> flag' i = true).
  { intros i Hi. refine (proj2 (C47_flags_unique (length l) _ _ _ (fun i => flag' i = true) (fun _ => True) F' _ i Hi) Logic.I).
    intros a Ha. split; [|intros; exact Logic.I]. intros _ b Hb He _ Hcov. destruct (Hl a Ha) as [A1 A2], (Hl b Hb) as [B1 B2].
    apply (proj1 (F (nth a l 0%nat) A1) A2 (nth b l 0%nat) B1); [|exact B2|exact Hcov].
    unfold earlier, chosen in *. destruct He as [He|(E1 & [He|(E2 & He)])]; [left; exact He|right; auto|right; split; [exact E1|right; split; [exact E2|apply Hs; assumption]]]. }
  exists flag, (map cluster (seq 0 n)), (map cluster' (seq 0 (length l))). split; [exact E|]. cbv zeta. fold l. split; [|split].
  - rewrite E'. f_equal. f_equal. clear -Hall. generalize (length l) Hall. clear. intros m H.
    assert (G : forall q a, (a + q <= m)%nat -> map flag' (seq a q) = repeat true q). { induction q as [|q IH]; intros a Ha; [reflexivity|]. cbn. rewrite H by lia. f_equal. apply IH. lia. }
    apply G. lia.
  - rewrite map_length, seq_length. reflexivity.
  - apply nodup_map_seq. intros i j Hi Hj Eq. apply (proj2 G' i j Hi Hj (Hall i Hi) (Hall j Hj) Eq).
Qed.
Print Assumptions C232_mainshocks_stay.
(** concrete case: two co-located events; only the larger stays *)
Example C232_case : exists flag cluster cluster', decluster haversine (windows Uhrhammer None) (Fin 1) (catalogue 2 (fun _ => 0) (fun i => 3 + INR i) (fun _ => 8) (fun _ => 47)) = Ok (map flag (seq 0 2), cluster) /\
  let l := mainshocks 2 flag in decluster haversine (windows Uhrhammer None) (Fin 1) (catalogue (length l) (chosen l (fun _ => 0)) (chosen l (fun i => 3 + INR i)) (chosen l (fun _ => 8)) (chosen l (fun _ => 47))) = Ok (repeat true (length l), cluster') /\
  length cluster' = length l /\ NoDup cluster'.
Proof. apply (C232_mainshocks_stay 2 (fun _ => 0) (fun i => 3 + INR i) (fun _ => 8) (fun _ => 47) 1 Uhrhammer None); [lra|intros; exact Logic.I|discriminate]. Qed.
