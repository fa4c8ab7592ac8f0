(** * C47 (the flags are determined; the real windows and distance), C48, C95 *)
From Coq Require Import ZArith List Bool Lia Reals Lra Permutation Sorted.
From Verif Require Import Base Num XR SortLib Decluster_model Decluster_proofs Spec_Decluster Props_Decluster Props_Sphere Props_Windows.
Import ListNotations.
Open Scope R_scope.

Lemma in_order n time mag lon lat i : In i (order (catalogue n time mag lon lat)) <-> (i < n)%nat.
Proof. rewrite order_lt, cat_len. reflexivity. Qed.

(** the description [gk_flags] determines the flags *)
Theorem C47_flags_unique : forall n mag time covers main main',
  gk_flags n (earlier mag time) covers main -> gk_flags n (earlier mag time) covers main' ->
  forall i, (i < n)%nat -> (main i <-> main' i).
Proof.
  intros n mag time cov main main' H H'.
  set (l := order (catalogue n time mag (fun _ => 0) (fun _ => 0))).
  assert (Hs : StronglySorted (earlier mag time) l) by apply order_sorted.
  assert (Hl : forall i, In i l <-> (i < n)%nat) by (intros; apply in_order).
  assert (P : forall l1 l2, l = l1 ++ l2 -> forall i, In i l1 -> (main i <-> main' i)).
  { induction l1 as [|x l1 IH] using rev_ind; intros l2 E i Hi; [destruct Hi|]. rewrite <- app_assoc in E. cbn [app] in E. specialize (IH _ E).
    apply in_app_iff in Hi. destruct Hi as [Hi|[<-|[]]]; [apply IH; exact Hi|].
    rewrite E in Hs. destruct (sorted_split _ _ _ _ Hs) as [S1 S2].
    assert (Hb : forall j, (j < n)%nat -> earlier mag time j x -> In j l1).
    { intros j Hj He. apply Hl in Hj. rewrite E in Hj. apply in_app_iff in Hj. destruct Hj as [Hj|[<-|Hj]]; [exact Hj| |]; exfalso.
      - exact (earlier_irrefl _ _ _ He).
      - exact (earlier_asym _ _ _ _ He (S2 _ Hj)). }
    assert (Hx : (x < n)%nat) by (apply Hl; rewrite E; apply in_app_iff; right; left; reflexivity).
    rewrite (H x Hx), (H' x Hx). split; intros K j Hj He Hm; apply (K j Hj He); apply (IH j (Hb j Hj He)); exact Hm. }
  intros i Hi. apply (P l [] (eq_sym (app_nil_r l))). apply Hl. exact Hi.
Qed.
Print Assumptions C47_flags_unique.

(** an event with no event treated before it (the largest) is a mainshock *)
Theorem C47_largest : forall n mag time covers main i, gk_flags n (earlier mag time) covers main -> (i < n)%nat ->
  (forall j, (j < n)%nat -> j <> i -> mag j < mag i) -> main i.
Proof.
  intros n mag time cov main i H Hi Hmax. apply (H i Hi). intros j Hj He _ _. destruct (Nat.eq_dec j i) as [->|Hn]; [exact (earlier_irrefl _ _ _ He)|]. specialize (Hmax j Hj Hn). unfold earlier in He. lra.
Qed.
Print Assumptions C47_largest.

(** the time window in seconds, with the cutoff (in days) *)
Definition time_limit (k : window_kind) (cutoff : option R) (m : R) : R :=
  match cutoff with None => tw k m | Some c => Rmin (tw k m) c end * 86400.
Lemma windows_real k cutoff n mag : (forall i, (i < n)%nat -> usable k (mag i)) -> (forall c, cutoff = Some c -> 0 < c) ->
  windows k (option_map Fin cutoff) (map (fun i => Fin (mag i)) (seq 0 n)) =
  (map (fun i => Fin (sw k (mag i))) (seq 0 n), map (fun i => Fin (time_limit k cutoff (mag i))) (seq 0 n)).
Proof.
  intros U Hc. unfold windows. rewrite !map_map. f_equal; apply map_ext_in; intros i Hi; apply in_seq in Hi.
  - apply space_window_real, U. lia.
  - unfold time_limit. destruct cutoff as [c|]; cbn [option_map].
    + rewrite (proj1 (C49_cutoff k c (mag i) (Hc c eq_refl) (U i ltac:(lia)))), x_ofZ, x_mul. reflexivity.
    + rewrite (proj2 (C49_cutoff k 1 (mag i) ltac:(lra) (U i ltac:(lia)))), x_ofZ, x_mul. reflexivity.
Qed.
(** with the great-circle distance and the windows of the package *)
Theorem C47_package_windows : forall n time mag lon lat fs k cutoff,
  0 <= fs -> (forall i, (i < n)%nat -> usable k (mag i)) -> (forall c, cutoff = Some c -> 0 < c) ->
  exists flag cluster,
    let cov := covers distance time lon lat (fun i => sw k (mag i)) (fun i => time_limit k cutoff (mag i)) fs in
    decluster haversine (windows k (option_map Fin cutoff)) (Fin fs) (catalogue n time mag lon lat) = Ok (map flag (seq 0 n), map cluster (seq 0 n)) /\
    gk_flags n (earlier mag time) cov (fun i => flag i = true) /\
    gk_clusters n (earlier mag time) cov (fun i => flag i = true) cluster.
Proof.
  intros n time mag lon lat fs k cutoff Hfs U Hc.
  apply (C47_gardner_knopoff n time mag lon lat (fun i => sw k (mag i)) (fun i => time_limit k cutoff (mag i)) fs haversine distance); try assumption.
  - intros; apply distance_fin.
  - intros; apply distance_self.
  - intros i Hi. split; [left; apply sw_pos|]. unfold time_limit. apply Rmult_le_pos; [|lra]. destruct cutoff as [c|]; [|left; apply tw_pos].
    left. apply Rmin_glb_lt; [apply tw_pos|auto].
  - apply windows_real; assumption.
Qed.
Print Assumptions C47_package_windows.

(** ** C95: the result does not depend on the order of the rows *)
Theorem C95_row_order : forall n time mag lon lat sw tw fs dist distR s,
  (forall a b c d, dist (Fin a) (Fin b) (Fin c) (Fin d) = Fin (distR a b c d)) ->
  (forall a b, distR a b a b = 0) ->
  0 <= fs -> (forall m, 0 <= sw m /\ 0 <= tw m) ->
  (* s permutes the rows; no two events have the same magnitude and time *)
  (forall i, (i < n)%nat -> (s i < n)%nat) -> (forall i j, (i < n)%nat -> (j < n)%nat -> s i = s j -> i = j) ->
  (forall i, (i < n)%nat -> exists j, (j < n)%nat /\ s j = i) ->
  (forall i j, (i < n)%nat -> (j < n)%nat -> mag i = mag j -> time i = time j -> i = j) ->
  forall window, (forall g, (forall i, (i < n)%nat -> exists j, (j < n)%nat /\ g i = mag j) -> window (map (fun i => Fin (g i)) (seq 0 n)) = (map (fun i => Fin (sw (g i))) (seq 0 n), map (fun i => Fin (tw (g i))) (seq 0 n))) ->
  exists flag c c',
    decluster dist window (Fin fs) (catalogue n time mag lon lat) = Ok (map flag (seq 0 n), c) /\
    decluster dist window (Fin fs) (catalogue n (fun i => time (s i)) (fun i => mag (s i)) (fun i => lon (s i)) (fun i => lat (s i))) = Ok (map (fun i => flag (s i)) (seq 0 n), c').
Proof.
  intros n time mag lon lat sw tw fs dist distR s Hd H0 Hfs Hpos Hs1 Hs2 Hs3 Hdis window Hw.
  destruct (C47_gardner_knopoff n time mag lon lat (fun i => sw (mag i)) (fun i => tw (mag i)) fs dist distR window Hd H0 Hfs (fun i _ => Hpos (mag i)) (Hw mag (fun i Hi => ex_intro _ i (conj Hi eq_refl)))) as (f & c & E & F & _).
  destruct (C47_gardner_knopoff n (fun i => time (s i)) (fun i => mag (s i)) (fun i => lon (s i)) (fun i => lat (s i)) (fun i => sw (mag (s i))) (fun i => tw (mag (s i))) fs dist distR window Hd H0 Hfs (fun i _ => Hpos (mag (s i))) (Hw (fun i => mag (s i)) (fun i Hi => ex_intro _ (s i) (conj (Hs1 i Hi) eq_refl)))) as (f' & c' & E' & F' & _).
  exists f, (map c (seq 0 n)), (map c' (seq 0 n)). split; [exact E|]. rewrite E'. do 2 f_equal. apply map_ext_in. intros i Hi. apply in_seq in Hi.
  assert (K : f' i = true <-> f (s i) = true).
  { apply (C47_flags_unique n (fun i => mag (s i)) (fun i => time (s i)) _ (fun i => f' i = true) (fun i => f (s i) = true) F'); [|lia].
    intros a Ha. rewrite (F (s a) (Hs1 a Ha)). split.
    - intros K j Hj He Hm. apply K; [apply Hs1; exact Hj| |exact Hm]. unfold earlier in *. destruct He as [He|(E1 & [He|(E2 & He)])]; [left; exact He|right; auto|].
      exfalso. assert (s j = s a) by (apply Hdis; auto). assert (j = a) by auto. lia.
    - intros K j Hj He Hm. destruct (Hs3 j Hj) as (b & Hb & <-). apply (K b Hb); [|exact Hm]. unfold earlier in *. destruct He as [He|(E1 & [He|(E2 & He)])]; [left; exact He|right; auto|].
      exfalso. assert (s b = s a) by (apply Hdis; auto). lia. }
  destruct (f' i), (f (s i)); intuition congruence.
Qed.
Print Assumptions C95_row_order.
(** the hypothesis on the window function holds for the package's windows *)
Example C95_windows_meet : forall k cutoff n mag, (forall i, (i < n)%nat -> usable k (mag i)) -> (forall c, cutoff = Some c -> 0 < c) ->
  forall g, (forall i, (i < n)%nat -> exists j, (j < n)%nat /\ g i = mag j) ->
  windows k (option_map Fin cutoff) (map (fun i => Fin (g i)) (seq 0 n)) = (map (fun i => Fin (sw k (g i))) (seq 0 n), map (fun i => Fin (time_limit k cutoff (g i))) (seq 0 n)).
Proof. intros k cutoff n mag U Hc g Hg. apply windows_real; [|exact Hc]. intros i Hi. destruct (Hg i Hi) as (j & Hj & ->). apply U. exact Hj. Qed.

(** ** C48: the result depends on the index labels *)
(** (a) a catalogue whose labels all lie outside the range of positions is never declustered
    (such as the second half of a catalogue that has been split by filtering) *)
Theorem C48_index_error_refuted : forall dist window fs (evs : list (event xr)), evs <> [] ->
  (forall e, In e evs -> (Z.of_nat (length evs) <= e_label e)%Z) ->
  (* no time window is NaN: see C230 *)
  (forall t, In t (snd (window (map e_mag evs))) -> t <> NaN) ->
  decluster dist window fs evs = Err IndexError.
Proof.
  intros dist window fs evs Hne Hl Ht. unfold decluster. destruct (window (map e_mag evs)) as [sws tws]. cbn [snd] in Ht.
  assert (Hd : durations tws = Ok tws). { unfold durations. replace (existsb nisnan tws) with false; [reflexivity|]. symmetry. apply not_true_is_false. rewrite existsb_exists. intros (x & Hx & E). destruct x; try discriminate. exact (Ht NaN Hx eq_refl). }
  rewrite Hd. cbn [rbind].
  pose proof (ordered_perm evs) as P. destruct (ordered evs) as [|[i r] rows] eqn:E.
  - apply Permutation_sym, Permutation_nil in P. destruct evs; [congruence|discriminate].
  - assert (Hr : In r evs). { assert (In (i, r) (combine (seq 0 (length evs)) evs)) by (apply (Permutation_in _ (Permutation_sym P)); left; reflexivity). eapply in_combine_r. eassumption. }
    specialize (Hl r Hr). cbn [map snd dec_loop]. unfold dec_step. cbn [rbind]. unfold np_pos.
    rewrite (proj2 (Z.ltb_ge (e_label r) (Z.of_nat (length evs)))) by lia. rewrite andb_false_r.
    rewrite (proj2 (Z.ltb_ge (e_label r) 0)) by lia. rewrite andb_false_r. reflexivity.
Qed.
Print Assumptions C48_index_error_refuted.
(** (b) two co-located simultaneous events, the first larger; with the labels 0, 1 the first is
    the mainshock, with the labels 1, 0 the second *)
Theorem C48_swapped_labels_refuted : forall k fs m0 m1 t lon lat, 0 <= fs -> usable k m0 -> usable k m1 -> m1 < m0 ->
  let cat a b := [mkev a (Fin t) (Fin m0) (Fin lon) (Fin lat); mkev b (Fin t) (Fin m1) (Fin lon) (Fin lat)] in
  decluster haversine (windows k None) (Fin fs) (cat 0%Z 1%Z) = Ok ([true; false], [1; 1]%nat) /\
  decluster haversine (windows k None) (Fin fs) (cat 1%Z 0%Z) = Ok ([false; true], [1; 1]%nat).
Proof.
  intros k fs m0 m1 t lon lat Hfs U0 U1 Hm cat.
  assert (Hd : haversine (Fin lon) (Fin lat) (Fin lon) (Fin lat) = Fin 0) by (rewrite distance_fin, distance_self; reflexivity).
  assert (Hw : windows k None [Fin m0; Fin m1] = ([Fin (sw k m0); Fin (sw k m1)], [Fin (tw k m0 * 86400); Fin (tw k m1 * 86400)])).
  { unfold windows. cbn [map cut_time]. rewrite !space_window_real, !time_window_real, x_ofZ, !x_mul by assumption. reflexivity. }
  assert (Hord : forall a b, map snd (ordered (cat a b)) = cat a b).
  { intros a b. unfold ordered, cat. cbn [length seq combine isort insert_by fold_right]. unfold isort. cbn [insert_by].
    unfold row_le, larger. cbn [snd e_mag nisnan]. rewrite x_ltb. replace (rlt m1 m0) with true by (symmetry; apply rlt_true; exact Hm). reflexivity. }
  assert (Hsel : forall x T D, 0 <= T -> 0 <= D -> (nleb (nopp (Fin T) * Fin fs)%num (Fin x - Fin x)%num && nleb (Fin x - Fin x)%num (Fin T) && nleb (Fin 0) (Fin D))%bool = true).
  { intros x T D HT HD. rewrite x_opp, x_mul, x_sub, !x_leb, !andb_true_iff, !rle_true. nra. }
  pose proof (tw_pos k m0) as T0. pose proof (tw_pos k m1) as T1. pose proof (sw_pos k m0) as S0.
  assert (HT0 : 0 <= tw k m0 * 86400) by lra. assert (HT1 : 0 <= tw k m1 * 86400) by lra.
  assert (Hstep : forall a b i T, np_pos 2 a = Ok i -> nth i [Fin (tw k m0 * 86400); Fin (tw k m1 * 86400)] nnan = Fin T -> 0 <= T ->
    dec_step haversine (Fin fs) (cat a b) [Fin (sw k m0); Fin (sw k m1)] [Fin (tw k m0 * 86400); Fin (tw k m1 * 86400)] (repeat 0%nat 2, 1%nat, repeat true 2) (mkev a (Fin t) (Fin m0) (Fin lon) (Fin lat))
    = Ok ([1; 1]%nat, 2%nat, set_nth i true [false; false])).
  { intros a b i T Hi HT HTp. unfold dec_step. change (length (cat a b)) with 2%nat. cbn [e_label]. rewrite Hi. cbn [rbind].
    assert (Hz : nth i (repeat 0%nat 2) 0%nat = 0%nat) by (destruct i as [|[|[|]]]; reflexivity). rewrite Hz. cbn [Nat.eqb negb].
    assert (Hti : e_time (nth i (cat a b) (mkev a (Fin t) (Fin m0) (Fin lon) (Fin lat))) = Fin t) by (unfold cat; destruct i as [|[|[|]]]; reflexivity). rewrite Hti, HT.
    unfold by_label, cat. cbn [map e_label combine find fst]. rewrite Z.eqb_refl. cbn [rbind snd repeat map2 e_time e_lon e_lat Nat.eqb]. rewrite x_floor, Hd, !andb_true_l, Hsel by lra. reflexivity. }
  assert (Hskip : forall a b c i, np_pos 2 a = Ok i -> (i < 2)%nat -> dec_step haversine (Fin fs) b [Fin (sw k m0); Fin (sw k m1)] [Fin (tw k m0 * 86400); Fin (tw k m1 * 86400)] ([1; 1]%nat, 2%nat, c) (mkev a (Fin t) (Fin m1) (Fin lon) (Fin lat)) = Ok ([1; 1]%nat, 2%nat, c) \/ length b <> 2%nat).
  { intros a b c i Hi Hlt. destruct (Nat.eq_dec (length b) 2) as [L|L]; [left|right; exact L]. unfold dec_step. rewrite L. cbn [e_label]. rewrite Hi. cbn [rbind]. destruct i as [|[|]]; [reflexivity|reflexivity|lia]. }
  split.
  - unfold decluster. change (map e_mag (cat 0%Z 1%Z)) with [Fin m0; Fin m1]. rewrite Hw. change (durations [Fin (tw k m0 * 86400); Fin (tw k m1 * 86400)]) with (Ok [Fin (tw k m0 * 86400); Fin (tw k m1 * 86400)]). cbn [rbind]. rewrite Hord. change (length (cat 0%Z 1%Z)) with 2%nat. unfold cat at 2. cbn [dec_loop].
    rewrite (Hstep 0%Z 1%Z 0%nat (tw k m0 * 86400) eq_refl eq_refl HT0). cbn [rbind].
    destruct (Hskip 1%Z (cat 0%Z 1%Z) (set_nth 0 true [false; false]) 1%nat eq_refl ltac:(lia)) as [->|K]; [reflexivity|exfalso; apply K; reflexivity].
  - unfold decluster. change (map e_mag (cat 1%Z 0%Z)) with [Fin m0; Fin m1]. rewrite Hw. change (durations [Fin (tw k m0 * 86400); Fin (tw k m1 * 86400)]) with (Ok [Fin (tw k m0 * 86400); Fin (tw k m1 * 86400)]). cbn [rbind]. rewrite Hord. change (length (cat 1%Z 0%Z)) with 2%nat. unfold cat at 2. cbn [dec_loop].
    rewrite (Hstep 1%Z 0%Z 1%nat (tw k m1 * 86400) eq_refl eq_refl HT1). cbn [rbind].
    destruct (Hskip 0%Z (cat 1%Z 0%Z) (set_nth 1 true [false; false]) 0%nat eq_refl ltac:(lia)) as [->|K]; [reflexivity|exfalso; apply K; reflexivity].
Qed.
Print Assumptions C48_swapped_labels_refuted.
(** labels equal to positions: C47 applies, the flags belong to the rows *)

(** concrete cases that meet the hypotheses *)
Example C47_case : exists flag cluster, decluster haversine (windows Gruenthal (Some (Fin 100))) (Fin 0.5)
  (catalogue 3 (fun i => 1000 * INR i) (fun i => 3 + INR i) (fun i => 8 + INR i) (fun _ => 47)) = Ok (map flag (seq 0 3), map cluster (seq 0 3)) /\ flag 2%nat = true.
Proof.
  destruct (C47_package_windows 3 (fun i => 1000 * INR i) (fun i => 3 + INR i) (fun i => 8 + INR i) (fun _ => 47) 0.5 Gruenthal (Some 100)) as (f & c & E & F & _); [lra| |intros c [= <-]; lra|].
  - intros i Hi. cbn. pose proof (pos_INR i). lra.
  - exists f, c. split; [exact E|]. apply (C47_largest 3 (fun i => 3 + INR i) (fun i => 1000 * INR i) _ (fun i => f i = true) 2 F); [lia|].
    intros j Hj Hn. assert (INR j < INR 2) by (apply lt_INR; lia). lra.
Qed.
Example C95_case : exists flag c c', 
  decluster haversine (windows Uhrhammer None) (Fin 1) (catalogue 2 (fun i => INR i) (fun i => INR i) (fun _ => 8) (fun _ => 47)) = Ok (map flag (seq 0 2), c) /\
  decluster haversine (windows Uhrhammer None) (Fin 1) (catalogue 2 (fun i => INR (1 - i)) (fun i => INR (1 - i)) (fun _ => 8) (fun _ => 47)) = Ok (map (fun i => flag (1 - i)%nat) (seq 0 2), c').
Proof.
  apply (C95_row_order 2 (fun i => INR i) (fun i => INR i) (fun _ => 8) (fun _ => 47) (sw Uhrhammer) (time_limit Uhrhammer None) 1 haversine distance (fun i => (1 - i)%nat)).
  - intros; apply distance_fin.
  - intros; apply distance_self.
  - lra.
  - intros m. split; [left; apply sw_pos|]. unfold time_limit. pose proof (tw_pos Uhrhammer m). lra.
  - intros; lia.
  - intros; lia.
  - intros i Hi. exists (1 - i)%nat. lia.
  - intros i j _ _ H _. apply INR_eq. exact H.
  - apply (C95_windows_meet Uhrhammer None 2 (fun i => INR i)); [intros; exact I|discriminate].
Qed.
