(** * Further property theorems about partitions and windows (C36, C40) *)
From Coq Require Import ZArith List Bool Reals Lia Lra Permutation Sorted.
From Verif Require Import Base Num XR RList SortLib Binning_model BinTest_proofs BValue_model BValue_run BValue_proofs BValue_real AValue_model AValue_proofs BSig_model
  Spec_BSig Spec_Positive Positive_proofs Props_BValue Props_BValue2 Props_AValue Props_Positive Props_BSig Moran_proofs Props_BSig2 Props_BSig3.
Import ListNotations.
Open Scope R_scope.

(** ** C36: one completeness magnitude for all events is the same as giving it for every event *)
Theorem C36_scalar_mc : forall T (N : Num T) srt cdf m wn kw draws (mags : list T) c delta times n min_num x cons,
  b_significant_1D srt cdf m wn kw draws mags (Scalar c) delta times n min_num x cons
  = b_significant_1D srt cdf m wn kw draws mags (Array (repeat c (length mags))) delta times n min_num x cons.
Proof. reflexivity. Qed.
(** with x_variable: the windows are those of the events sorted along it *)
Theorem C36_subsamples_along_x : forall srt cdf m wn kw draws (ev sorted : list event2) c delta n min_num cons, argsort_ok srt ->
  Permutation sorted ev -> StronglySorted (fun a b => snd a < snd b) sorted -> (0 < n)%nat -> (min_num <= n)%nat ->
  let series := filter (fun e => nleb (nsub c (Fin (decR delta / 2))) (ev_m (fst e))) sorted in
  let run := b_significant_1D srt cdf m wn kw draws (map (fun e => ev_m (fst e)) ev) (Scalar c) delta (map (fun e => ev_t (fst e)) ev) n min_num
    (Some (map (fun e => Fin (snd e)) ev)) cons in
  (length series < 3 * n -> run = Ok (NaN, NaN, NaN, NaN))%nat /\
  (3 * n <= length series -> run = rmap (summary cdf cons)
     (mapM (fun ii => ac_one srt m wn kw (draws ii) delta min_num
        (map (fun j => map (fun e => ev_m (fst e)) (window n series j)) (starts n (length series) ii),
         map (fun j => map (fun e => ev_t (fst e)) (window n series j)) (starts n (length series) ii),
         map (fun _ => c) (starts n (length series) ii))) (seq 0 n)))%nat.
Proof.
  intros srt cdf m wn kw draws ev sorted c delta n min_num cons Hs P S Hn Hm series run.
  set (ev1 := map (fun e : event2 => (ev_m (fst e), ev_t (fst e), c) : event1) sorted).
  assert (E1 : run = b_significant_1D srt cdf m wn kw draws (map ev_m ev1) (Array (map ev_c ev1)) delta (map ev_t ev1) n min_num None cons).
  { unfold run. rewrite (C85_x_variable_sorts srt cdf m wn kw draws ev sorted c delta n min_num cons Hs P S). rewrite C36_scalar_mc. unfold ev1. rewrite !map_map. cbn [ev_m ev_t ev_c fst snd].
    rewrite map_length. f_equal. f_equal. clear. induction sorted as [|e l IH]; [reflexivity|]. cbn [length repeat map]. f_equal. exact IH. }
  assert (E2 : complete1 delta ev1 = map (fun e : event2 => (ev_m (fst e), ev_t (fst e), c) : event1) series).
  { unfold complete1, ev1, series. clear. induction sorted as [|e l IH]; [reflexivity|]. cbn [map filter ev_c ev_m fst snd]. destruct (nleb _ _); cbn [map]; rewrite IH; reflexivity. }
  pose proof (C36_subsamples srt cdf m wn kw draws ev1 delta n min_num cons Hn Hm) as H. cbv zeta in H. rewrite <- E1, E2, map_length in H.
  destruct H as [H1 H2]. split; [exact H1|]. intros L. destruct (H2 L) as (lmc & F & E). rewrite E. f_equal. apply mapM_ext_in. intros ii Hi. apply in_seq in Hi.
  assert (W : forall f : event1 -> xr, map (fun j => map f (window n (map (fun e : event2 => (ev_m (fst e), ev_t (fst e), c) : event1) series) j)) (starts n (length series) ii)
     = map (fun j => map (fun e => f (ev_m (fst e), ev_t (fst e), c)) (window n series j)) (starts n (length series) ii)).
  { intros f. apply map_ext. intros j. rewrite window_map, map_map. reflexivity. }
  rewrite !W. cbn [ev_m ev_t fst snd]. f_equal. f_equal.
  specialize (F ii ltac:(lia)). clear - F. revert F. generalize (lmc ii). generalize (starts n (length series) ii). induction l as [|j l IH]; intros l' F; inversion F as [|? y ? ys HF F']; subst; [reflexivity|].
  cbn [map]. f_equal; [|apply IH; exact F'].
  rewrite window_map, map_map in HF. cbn [ev_c snd] in HF. destruct (window n series j) as [|e w]; [discriminate HF|]. cbn [map pymax] in HF. injection HF as <-.
  clear. induction w as [|a w IH]; [reflexivity|]. cbn [map fold_left]. assert (Q : (if xltb c c then c else c) = c) by (destruct (xltb c c); reflexivity). change (fold_left (fun a b : xr => if xltb a b then b else a) (map (fun _ : event2 => c) w) (if xltb c c then c else c) = c). rewrite Q. exact IH.
Qed.
Print Assumptions C36_scalar_mc.
Print Assumptions C36_subsamples_along_x.

(** ** C40: a part without events, and a part for the a-value methods *)
Theorem C40_empty_part_nan : forall T (N : Num T) srt m wn kw draws delta times mc sc, sc <> Some [] ->
  values_from_partitioning srt m wn kw draws [[]] [times] (Array [mc]) delta sc = Ok [(nnan, nnan, 0%nat)].
Proof.
  intros T N srt m wn kw draws delta times mc sc H. unfold values_from_partitioning. cbn [length Nat.eqb negb rbind].
  destruct m; [reflexivity|]. destruct sc as [[|s l]|]; [congruence| |]; reflexivity.
Qed.
(** a-values: what the estimator gives for the magnitudes and times of the part in the order of the
    times, with the scaling factor of the part (1 if none is given) *)
Theorem C40_single_part_a : forall T (N : Num T) srt k wn kw draws delta mags times mc sc order sorted tsorted,
  mags <> [] -> srt times = order -> gather mags order = Ok sorted -> gather times order = Ok tsorted ->
  sc <> Some [] ->
  let scale := match sc with Some (s :: _) => s | _ => one end in
  let '((o, _), r) := a_calculate srt k wn (mkaargs sorted mc delta (Some scale) (kw_mref kw) (kw_b kw) tsorted (kw_dmc kw)) (new_aobj, []) in
  values_from_partitioning srt (MA k) wn kw draws [mags] [times] (Array [mc]) delta sc
  = match r with
    | Ok _ => match a_value o, a_n o with Ok v, Ok n => Ok [(v, nnan, n)] | Err e, _ => Err e | _, Err e => Err e end
    | Err e => Err e
    end.
Proof.
  intros T N srt k wn kw draws delta mags times mc sc order sorted tsorted Hne Ho Hg Ht Hsc scale.
  assert (E : values_from_partitioning srt (MA k) wn kw draws [mags] [times] (Array [mc]) delta sc
     = let? x := snd (evaluate srt (MA k) wn kw delta (draws 0%nat) sorted tsorted mc scale (new_estimator (MA k))) in Ok [x]).
  { unfold values_from_partitioning. cbn [length Nat.eqb negb rbind].
    assert (G : match sc with Some s => s | None => repeat one 1 end = scale :: match sc with Some (_ :: l) => l | _ => [] end).
    { unfold scale. destruct sc as [[|s l]|]; [congruence| |]; reflexivity. }
    rewrite G. cbn [evaluate_all]. unfold evaluate_part. destruct mags as [|x mags]; [congruence|]. rewrite Ho, Hg, Ht.
    destruct (evaluate srt (MA k) wn kw delta (draws 0%nat) sorted tsorted mc scale (new_estimator (MA k))) as [e' [x'|e]]; reflexivity. }
  rewrite E. cbn [evaluate new_estimator]. destruct (a_calculate srt k wn _ (new_aobj, [])) as [[o ws] r]. cbn [snd].
  destruct r as [v|e]; [|reflexivity]. cbn [rbind]. destruct (a_value o); [|reflexivity]. cbn [rbind]. destruct (a_n o); reflexivity.
Qed.
Print Assumptions C40_empty_part_nan.
Print Assumptions C40_single_part_a.
(** nine events, sorted by x_variable in reverse, windows of two complete events *)
Example C36_example_x : let ev := map (fun i => ((Fin (INR i), Fin (INR i), Fin 0) : event1, - INR i)) (seq 1 9) in
  Permutation (rev ev) ev /\ StronglySorted (fun a b : event2 => snd a < snd b) (rev ev).
Proof.
  cbv zeta. split; [apply Permutation_sym, Permutation_rev|]. cbn [seq map rev app].
  repeat (constructor; [|repeat (constructor; [cbn [snd INR]; lra|]); constructor]). constructor.
Qed.
