(** * C125-C127, C131, C132: plots of counts and magnitudes in time, map extents, colours *)
From Coq Require Import Reals Lra Lia ZArith List Bool Sorted Permutation.
From Verif Require Import Base Num XR RList SortLib StateM Binning_model Spec_Binning Fmd_proofs BValue_model BSig_model Spec_Positive Positive_proofs
  Props_Positive Plots_model Spec_Plots Props_Plots Props_Coordinates.
Import ListNotations.
Open Scope R_scope.

Lemma sort_gather_by {A} srt (f : A -> R) (ev : list A) : argsort_ok srt ->
  exists ev', gather ev (srt (map (fun e => Fin (f e)) ev)) = Ok ev' /\ Permutation ev' ev /\ StronglySorted (fun a b => f a <= f b) ev'.
Proof.
  intros Hs. destruct (Hs (map (fun e => Fin (f e)) ev)) as [P S]. rewrite map_length in P.
  destruct (gather_perm ev _ P) as (ev' & G & Pe). exists ev'. split; [exact G|]. split; [exact Pe|].
  destruct ev as [|d ev0] eqn:Ee; [apply Permutation_sym, Permutation_nil in Pe; subst; constructor|]. rewrite <- Ee in *.
  rewrite (gather_nth _ _ _ d G). apply (StronglySorted_map_in (not_later (map (fun e => Fin (f e)) ev))); [exact S|].
  intros i j Hi Hj H. apply (Permutation_in _ P) in Hi. apply (Permutation_in _ P) in Hj. apply in_seq in Hi, Hj.
  unfold not_later in H. specialize (H (Fin (f (nth i ev d))) (Fin (f (nth j ev d)))).
  rewrite !nth_error_map, !(nth_error_nth' ev d) in H by (first [exact (proj2 Hi)|exact (proj2 Hj)]). specialize (H eq_refl eq_refl). cbn in H. apply rle_true in H. exact H.
Qed.

(** ** C125: cumulative counts *)
(** an event: time, magnitude (possibly NaN), weight *)
Notation event := (R * xr * R)%type.
Definition e_time (e : event) : R := fst (fst e).
Definition e_mag (e : event) : xr := snd (fst e).
Definition e_weight (e : event) : R := snd e.
Definition above (lim : R) (e : event) : bool := nleb (Fin lim) (e_mag e).
Definition until (t : R) (e : event) : bool := rle (e_time e) t.
Definition fins2 (p : R * R) : xr * xr := (Fin (fst p), Fin (snd p)).

Lemma step_sorted (l : list event) acc t : StronglySorted (fun a b => e_time a <= e_time b) l ->
  step_at (zip (map e_time l) (prefix_from acc (map e_weight l))) t
  = if existsb (until t) l then Some (acc + total e_weight (until t) l) else None.
Proof.
  intros S. revert acc. induction S as [|a l S IH F]; intros acc; [reflexivity|].
  cbn [map prefix_from zip step_at existsb]. rewrite IH. unfold total. cbn [filter].
  destruct (existsb (until t) l) eqn:E.
  - apply existsb_exists in E. destruct E as (y & Hy & Ey). rewrite Forall_forall in F. specialize (F y Hy). unfold until in Ey. apply rle_true in Ey.
    assert (U : until t a = true) by (unfold until; apply rle_true; lra). rewrite U. cbn [orb map]. rewrite Rsum_cons. f_equal. lra.
  - assert (Z : filter (until t) l = []).
    { clear -E. induction l as [|y l IH]; [reflexivity|]. cbn in E |- *. apply orb_false_iff in E. destruct E as [-> E]. auto. }
    rewrite Z, orb_false_r. unfold until, rle. destruct (Rle_dec (e_time a) t); cbn; [|reflexivity]. f_equal. lra.
Qed.
Lemma step_app l x y t : step_at (l ++ [(x, y)]) t = if Rle_dec x t then Some y else step_at l t.
Proof.
  induction l as [|[x' y'] l IH]; cbn [app step_at]; [reflexivity|]. rewrite IH. destruct (Rle_dec x t); reflexivity.
Qed.
Lemma step_scale f l t : step_at (map (fun p => (fst p, f (snd p))) l) t = option_map f (step_at l t).
Proof.
  induction l as [|[x y] l IH]; cbn [map step_at fst snd]; [reflexivity|]. rewrite IH. destruct (step_at l t); [reflexivity|]. cbn. destruct (Rle_dec x t); reflexivity.
Qed.
Lemma Rsum_prefix_nonneg acc l : 0 <= acc -> (forall w, In w l -> 0 <= w) -> 0 <= Rsum (prefix_from acc l).
Proof.
  revert acc. induction l as [|a l IH]; intros acc Ha Hl; cbn [prefix_from]; [cbn; lra|].
  rewrite Rsum_cons. pose proof (Hl a (or_introl eq_refl)). pose proof (IH (acc + a) ltac:(lra) (fun w Hw => Hl w (or_intror Hw))). lra.
Qed.
Lemma Rsum_prefix_zero l : (forall w, In w l -> w = 0) -> Rsum (prefix_from 0 l) = 0.
Proof.
  induction l as [|a l IH]; intros H; cbn [prefix_from]; [reflexivity|]. rewrite (H a (or_introl eq_refl)), Rplus_0_l, Rsum_cons, IH; [lra|].
  intros w Hw. apply H. right. exact Hw.
Qed.
Lemma prefix_length acc l : length (prefix_from acc l) = length l.
Proof. revert acc; induction l as [|a l IH]; intros acc; cbn; [reflexivity|]. f_equal. apply IH. Qed.
Lemma zip_app {A B} (a a' : list A) (b b' : list B) : length a = length b -> zip (a ++ a') (b ++ b') = zip a b ++ zip a' b'.
Proof. revert b; induction a as [|x a IH]; intros [|y b] H; cbn in *; try lia; [reflexivity|]. f_equal. apply IH. lia. Qed.
Lemma total_perm {A} (w : A -> R) P l l' : Permutation l l' -> total w P l = total w P l'.
Proof. intros H. apply Rsum_perm, Permutation_map, filter_perm, H. Qed.
Lemma zip_fins2 (xs ys : list R) : zip (map Fin xs) (map Fin ys) = map fins2 (zip xs ys).
Proof. revert ys; induction xs as [|x xs IH]; intros [|y ys]; cbn; try reflexivity. f_equal. apply IH. Qed.
Lemma compress_ev {B} (f : event -> B) (P : event -> bool) (ev : list event) : compress (map P ev) (map f ev) = map f (filter P ev).
Proof. rewrite compress_map, compress_filter. reflexivity. Qed.
Lemma xsum_fin' l : nsum (map Fin l) = Fin (Rsum l).
Proof. induction l as [|a l IH]; [reflexivity|]. cbn [map]. change (nsum (Fin a :: map Fin l)) with (nadd (Fin a) (nsum (map Fin l))). rewrite IH. reflexivity. Qed.

Lemma last_map {A B} (f : A -> B) l d d' : l <> [] -> List.last (map f l) d' = f (List.last l d).
Proof. induction l as [|a l IH]; intros H; [congruence|]. destruct l as [|b l]; [reflexivity|]. cbn [map List.last] in *. apply IH. discriminate. Qed.
Lemma div_all a l : a <> 0 -> map (fun c => ndiv c (Fin a)) (map Fin l) = map Fin (map (fun c => c / a) l).
Proof. intros H. rewrite !map_map. apply map_ext. intros c. apply x_div. exact H. Qed.
(** one curve.  [first] and [last] bound the times of the events *)
Lemma cum_curve_R srt (ev : list event) d normalize first last mc : argsort_ok srt ->
  (forall e, In e ev -> 0 <= e_weight e) -> (forall e, In e ev -> first <= e_time e <= last) -> first <= last ->
  let lim := mc - d / 2 in
  let all := total e_weight (above lim) ev in
  exists r, cum_curve srt (map (fun e => Fin (e_time e)) ev) (map e_mag ev) (map (fun e => Fin (e_weight e)) ev) (Fin d) normalize (Fin first) (Fin last) (Fin mc) = Ok r /\
  (all = 0 -> r = None) /\
  (0 < all -> exists qs, r = Some (map fins2 qs) /\
     (forall t, t < first -> step_at qs t = None) /\
     (forall t, first <= t -> step_at qs t = Some (total e_weight (fun e => above lim e && until t e) ev / if normalize then all else 1)) /\
     List.last qs (0, 0) = (last, if normalize then 1 else all)).
Proof.
  intros Hs Hw Ht Hfl lim all. unfold cum_curve. rewrite !map_length, Nat.eqb_refl. cbn [negb orb].
  change (@two xr XR) with (Fin 2). rewrite x_div, x_sub by lra. fold lim. rewrite map_map. change (fun x => nleb (Fin lim) (e_mag x)) with (above lim).
  rewrite !compress_ev. set (sel := filter (above lim) ev).
  destruct (sort_gather_by srt e_time sel Hs) as (s & G & P & S). rewrite !gather_map, G. cbn [rmap rbind].
  rewrite <- !(map_map e_weight Fin), <- !(map_map e_time Fin), xsum_fin', np_cumsum_fin.
  change (@zero xr XR) with (Fin 0). change (Fin 0 :: map Fin (prefix_from 0 (map e_weight s)) ++ [Fin (Rsum (map e_weight s))])
    with (Fin 0 :: map Fin (prefix_from 0 (map e_weight s)) ++ map Fin [Rsum (map e_weight s)]).
  rewrite <- map_app. change (Fin first :: map Fin (map e_time s) ++ [Fin last]) with (Fin first :: map Fin (map e_time s) ++ map Fin [last]).
  rewrite <- map_app, <- !(map_cons Fin), xsum_fin', x_ltb.
  assert (Ea : Rsum (map e_weight s) = all) by (unfold all, total; fold sel; apply Rsum_perm, Permutation_map, P).
  rewrite Ea. rewrite Rsum_cons, Rsum_app, Rplus_0_l. change (Rsum [all]) with (all + 0). rewrite Rplus_0_r.
  assert (Hws : forall w, In w (map e_weight s) -> 0 <= w).
  { intros w Hin. apply in_map_iff in Hin. destruct Hin as (e & <- & He). apply (Permutation_in _ P) in He. apply filter_In in He. apply Hw. tauto. }
  assert (A0 : 0 <= all) by (rewrite <- Ea; apply Rsum_nonneg; exact Hws).
  set (qs := zip (first :: map e_time s ++ [last]) (0 :: prefix_from 0 (map e_weight s) ++ [all])).
  assert (Q0 : forall t, t < first -> step_at qs t = None).
  { intros t Hlt. unfold qs. cbn [zip step_at]. rewrite zip_app by (rewrite map_length, prefix_length, map_length; reflexivity). cbn [zip].
    rewrite step_app, step_sorted by exact S. destruct (Rle_dec last t); [lra|].
    replace (existsb (until t) s) with false. 2:{ symmetry. apply not_true_iff_false. intros E. apply existsb_exists in E. destruct E as (e & He & Ee).
      unfold until in Ee. apply rle_true in Ee. apply (Permutation_in _ P) in He. apply filter_In in He. pose proof (Ht e (proj1 He)). lra. }
    destruct (Rle_dec first t); [lra|reflexivity]. }
  assert (TS : forall t, total e_weight (until t) s = total e_weight (fun e => above lim e && until t e) ev).
  { intros t. rewrite (total_perm _ _ s sel P). unfold total, sel. f_equal. f_equal. clear. induction ev as [|e ev IH]; [reflexivity|]. cbn [filter].
    destruct (above lim e); cbn [andb filter]; [destruct (until t e)|]; congruence. }
  assert (Q1 : forall t, first <= t -> step_at qs t = Some (total e_weight (fun e => above lim e && until t e) ev)).
  { intros t Hle. unfold qs. cbn [zip step_at]. rewrite zip_app by (rewrite map_length, prefix_length, map_length; reflexivity). cbn [zip].
    rewrite step_app, step_sorted by exact S. rewrite <- TS. destruct (Rle_dec last t) as [L|L].
    - f_equal. rewrite <- Ea. unfold total. f_equal. f_equal. symmetry. rewrite <- (filter_true s) at 2. apply filter_ext_in'. intros e He.
      apply (Permutation_in _ P) in He. apply filter_In in He. pose proof (Ht e (proj1 He)). unfold until. apply rle_true. lra.
    - destruct (existsb (until t) s) eqn:E; [f_equal; lra|]. destruct (Rle_dec first t); [|lra]. f_equal. unfold total.
      assert (Z : filter (until t) s = []).
      { clear -E. induction s as [|y l IH]; [reflexivity|]. cbn in E |- *. apply orb_false_iff in E. destruct E as [-> E]. auto. }
      rewrite Z. reflexivity. }
  assert (QL : List.last qs (0, 0) = (last, all)).
  { unfold qs. cbn [zip]. rewrite zip_app by (rewrite map_length, prefix_length, map_length; reflexivity). cbn [zip]. rewrite app_comm_cons. apply last_last. }
  destruct (Req_dec all 0) as [Z|Z].
  - assert (Z0 : forall w, In w (map e_weight s) -> w = 0) by (apply Rsum_zero_all; [exact Hws|lra]).
    rewrite Rsum_prefix_zero by exact Z0. rewrite Z. rewrite (proj2 (rlt_false 0 (0 + 0))) by lra.
    eexists. split; [reflexivity|]. split; [reflexivity|]. lra.
  - pose proof (Rsum_prefix_nonneg 0 (map e_weight s) ltac:(lra) Hws). match goal with |- context [rlt 0 ?x] => rewrite (proj2 (rlt_true 0 x)) by lra end.
    eexists. split; [reflexivity|]. split; [intros; contradiction|]. intros _. destruct normalize.
    + exists (map (fun p => (fst p, snd p / all)) qs). split; [|split; [|split]].
      * apply f_equal. rewrite div_all, zip_fins2 by exact Z. f_equal. unfold qs.
        generalize (first :: map e_time s ++ [last]) as X, (0 :: prefix_from 0 (map e_weight s) ++ [all]) as Y.
        induction X as [|x X IH]; intros [|y Y]; cbn; try reflexivity. f_equal. apply IH.
      * intros t Hlt. rewrite (step_scale (fun c => c / all)), Q0 by exact Hlt. reflexivity.
      * intros t Hle. rewrite (step_scale (fun c => c / all)), Q1 by exact Hle. reflexivity.
      * rewrite last_map with (d := (0, 0)).
        -- rewrite QL. cbn. f_equal. field. exact Z.
        -- unfold qs. discriminate.
    + exists qs. split; [rewrite zip_fins2; reflexivity|]. split; [exact Q0|]. split; [|exact QL].
      intros t Hle. rewrite Q1 by exact Hle. f_equal. lra.
Qed.

Lemma first_last (t0 : R) ts : exists a z, pymin (map Fin (t0 :: ts)) = Ok (Fin a) /\ pymax (map Fin (t0 :: ts)) = Ok (Fin z) /\
  is_min a (t0 :: ts) /\ is_max z (t0 :: ts).
Proof.
  destruct (pymin_fin t0 ts) as (a & E1 & A1 & A2). destruct (pymax_fin t0 ts) as (z & E2 & B1 & B2). exists a, z.
  repeat split; auto.
Qed.
Lemma mapM_Forall2 {A B} (f : A -> res B) (Q : A -> B -> Prop) l : (forall x, In x l -> exists y, f x = Ok y /\ Q x y) ->
  exists ys, mapM f l = Ok ys /\ Forall2 Q l ys.
Proof.
  induction l as [|x l IH]; intros H; [exists []; split; [reflexivity|constructor]|].
  destruct (H x (or_introl eq_refl)) as (y & Ey & Qy). destruct IH as (ys & Eys & Qys); [intros z Hz; apply H; right; exact Hz|].
  exists (y :: ys). split; [|constructor; assumption]. cbn [mapM]. rewrite Ey. cbn [rbind]. rewrite Eys. reflexivity.
Qed.
(** what a curve shows for the completeness magnitude [mc]: nothing if no complete event carries
    weight, otherwise from the first event on the weight of the complete events up to then *)
Definition shows (ev : list event) (d : R) (normalize : bool) (mc : R) (r : option (list (xr * xr))) : Prop :=
  let lim := mc - d / 2 in
  let all := total e_weight (above lim) ev in
  (all = 0 -> r = None) /\
  (0 < all -> exists qs, r = Some (map fins2 qs) /\
     (forall t, (forall e, In e ev -> t < e_time e) -> step_at qs t = None) /\
     (forall t, (exists e, In e ev /\ e_time e <= t) ->
        step_at qs t = Some (total e_weight (fun e => above lim e && until t e) ev / if normalize then all else 1)) /\
     exists z, is_max z (map e_time ev) /\ List.last qs (0, 0) = (z, if normalize then 1 else all)).
Theorem C125_cumulative_counts : forall srt (ev : list event) mcs d normalize, argsort_ok srt -> ev <> [] ->
  (forall e, In e ev -> 0 <= e_weight e) ->
  exists curves,
    plot_cum_count srt (map (fun e => Fin (e_time e)) ev) (map e_mag ev) (Some (map Fin mcs)) (Some (Fin d))
      (Some (map (fun e => Fin (e_weight e)) ev)) normalize None = Ok curves /\
    Forall2 (shows ev d normalize) mcs curves.
Proof.
  intros srt ev mcs d normalize Hs Hne Hw. unfold plot_cum_count. destruct ev as [|e0 ev0]; [congruence|]. set (ev := e0 :: ev0) in *.
  destruct (first_last (e_time e0) (map e_time ev0)) as (a & z & E1 & E2 & [A1 A2] & [B1 B2]).
  rewrite <- (map_map e_time Fin). unfold ev at 1 2. cbn [map]. cbn [map] in E1, E2. rewrite E1, E2. cbn [rbind].
  change (Fin (e_time e0) :: map Fin (map e_time ev0)) with (map Fin (map e_time ev)). rewrite map_map.
  change (e_time e0 :: map e_time ev0) with (map e_time ev) in *.
  assert (G : exists ys, mapM (cum_curve srt (map (fun e => Fin (e_time e)) ev) (map e_mag ev) (map (fun e => Fin (e_weight e)) ev) (Fin d) normalize (Fin a) (Fin z)) (map Fin mcs) = Ok ys /\
    Forall2 (fun (m : xr) r => exists mc, m = Fin mc /\ shows ev d normalize mc r) (map Fin mcs) ys).
  { apply mapM_Forall2. intros m Hm. apply in_map_iff in Hm. destruct Hm as (mc & <- & _).
    destruct (cum_curve_R srt ev d normalize a z mc Hs Hw) as (r & E & R1 & R2).
    - intros e He. split; [apply A2|apply B2]; apply in_map; exact He.
    - apply A2. exact B1.
    - exists r. split; [exact E|]. exists mc. split; [reflexivity|]. split; [exact R1|]. intros Hp. destruct (R2 Hp) as (qs & -> & Q1 & Q2 & Q3).
      exists qs. split; [reflexivity|]. split; [|split].
      + intros t Ht. apply Q1. apply in_map_iff in A1. destruct A1 as (e & <- & He). apply Ht. exact He.
      + intros t (e & He & Hte). apply Q2. apply Rle_trans with (e_time e); [|exact Hte]. apply A2, in_map, He.
      + exists z. split; [split; assumption|exact Q3]. }
  destruct G as (ys & E & F). exists ys. split; [exact E|]. clear -F. remember (map Fin mcs) as ms eqn:Em. revert mcs Em.
  induction F as [|m r ms rs (mc & -> & H) F IH]; intros [|c mcs] Em; try discriminate; constructor.
  - injection Em as <- _. exact H.
  - injection Em as _ Em. apply IH. exact Em.
Qed.
Print Assumptions C125_cumulative_counts.
(** the defaults: every event counts once, no bin width, the smallest magnitude *)
Theorem C125_defaults : forall srt times mags normalize m0, times <> [] -> is_min m0 mags ->
  plot_cum_count srt times (map Fin mags) None None None normalize None
  = plot_cum_count srt times (map Fin mags) (Some [Fin m0]) (Some (Fin 0)) (Some (map (fun _ => Fin 1) times)) normalize None.
Proof.
  intros srt times mags normalize m0 Ht [M1 M2]. unfold plot_cum_count. destruct (pymin times); [|reflexivity]. cbn [rbind].
  destruct (pymax times); [|reflexivity]. cbn [rbind]. destruct mags as [|m ms]; [destruct M1|].
  destruct (pymin_fin m ms) as (x & -> & X1 & X2). cbn [rbind rmap].
  assert (x = m0) as -> by (pose proof (X2 m0 M1); pose proof (M2 x X1); lra).
  replace (map (fun _ => Fin 1) times) with (repeat (@one xr XR) (length times)); [reflexivity|].
  clear. induction times as [|t ts IH]; cbn; [reflexivity|]. f_equal. exact IH.
Qed.
Print Assumptions C125_defaults.
Theorem C125_errors : forall T (N : Num T) srt (times mags : list T) mcs delta weights normalize,
  plot_cum_count srt [] mags mcs delta weights normalize None = Err ValueError /\
  (forall n l, times <> [] -> n <> length l -> plot_cum_count srt times mags (Some l) delta weights normalize (Some n) = Err ValueError) /\
  (forall mc l, times <> [] -> length mags <> length times -> plot_cum_count srt times mags (Some (mc :: l)) delta weights normalize None = Err IndexError).
Proof.
  intros T N srt times mags mcs delta weights normalize. split; [reflexivity|]. split.
  - intros n l Ht Hn. destruct times as [|t ts]; [congruence|]. unfold plot_cum_count. cbn [pymin pymax rbind].
    rewrite (proj2 (Nat.eqb_neq _ _) Hn). reflexivity.
  - intros mc l Ht Hn. destruct times as [|t ts]; [congruence|]. unfold plot_cum_count. cbn [pymin pymax rbind mapM].
    unfold cum_curve at 1. rewrite map_length, (proj2 (Nat.eqb_neq _ _) Hn). reflexivity.
Qed.
Print Assumptions C125_errors.
Example C125_example : let ev := [(3, Fin 2, 1); (1, NaN, 1); (2, Fin (5 / 2), 2)] : list event in
  ev <> [] /\ (forall e, In e ev -> 0 <= e_weight e) /\ 0 < total e_weight (above (2 - 0.1 / 2)) ev /\
  argsort_ok xr_argsort.
Proof.
  cbv zeta. split; [discriminate|]. split; [intros e [<-|[<-|[<-|[]]]]; cbn; lra|]. split; [|exact xr_argsort_ok].
  unfold total, above, e_mag, e_weight. cbn [filter fst snd]. rewrite !x_leb. rewrite (proj2 (rle_true (2 - 0.1 / 2) 2)), (proj2 (rle_true (2 - 0.1 / 2) (5 / 2))) by lra.
  cbn. lra.
Qed.
