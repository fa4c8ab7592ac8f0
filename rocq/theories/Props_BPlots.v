(** * C128-C130: plots of b-values *)
From Coq Require Import Reals Lra Lia ZArith List Bool Sorted Permutation.
From Verif Require Import Base Num XR RList SortLib StateM Binning_model Spec_Binning BValue_model BValue_run BValue_proofs BSig_model Spec_BSig Props_BSig Spec_Positive Positive_proofs
  Props_Positive Props_BValue Props_BValue2 Plots_model Spec_Plots Props_Plots Props_Coordinates Props_TimePlots.
Import ListNotations.

(** ** C128: b-value against completeness magnitude *)
Section Fresh.
  Context {T : Type} {N : Num T} (srt : list T -> list nat).
  Lemma std_any k wn draws a (o1 o2 : @obj T) :
    let '(p1, r1) := calculate srt k wn a o1 in
    let '(p2, r2) := calculate srt k wn a o2 in
    r1 = r2 /\ (forall b, r1 = Ok b -> b_value p1 = b_value p2 /\ est_n p1 = est_n p2 /\ std_of srt k wn draws p1 = std_of srt k wn draws p2).
  Proof.
    pose proof (calculate_any_objects T N srt k o1 o2 wn wn a) as H.
    destruct (calculate srt k wn a o1) as [p1 r1]. destruct (calculate srt k wn a o2) as [p2 r2]. destruct H as [H1 H2]. split; [exact H1|].
    intros b Hb. destruct (H2 b Hb) as (_ & _ & _ & _ & _ & Eb & _ & En & Es & _ & Em). repeat split; [exact Eb|exact En|].
    unfold std_of. destruct k; try exact Es. apply (proj2 (proj2 (Em (or_intror eq_refl)))).
  Qed.
End Fresh.

(** a point of the plot: position, value and the two limits of the band *)
Definition point {T} {N : Num T} (z x b s : T) : T * T * T * T := (x, b, nsub b (nmul z s), nadd b (nmul z s)).

(** every point is the estimate that [estimate_b] gives for its completeness magnitude; the
    first completeness magnitude for which it raises makes the plot raise.  [z] is the normal
    quantile of the confidence level, [draws i] the resamples of the i-th point. *)
Theorem C128_points_are_estimates : forall T (N : Num T) srt ppf k wn draws (mags mcs : list T) delta kw confidence,
  let z := ppf (ndiv (nadd one confidence) two) in
  plot_mc_vs_b srt ppf k wn draws mags mcs delta kw confidence
  = mapM (fun q => match estimate_b srt k wn (with_kw mags (snd q) delta kw) PB true false (draws (fst q)) with
                   | Ok (OutBStd b s) => Ok (point z (snd q) b s)
                   | Ok _ => Err TypeError
                   | Err e => Err e
                   end) (combine (seq 0 (length mcs)) mcs).
Proof.
  intros T N srt ppf k wn draws mags mcs delta kw confidence z. unfold plot_mc_vs_b. fold z.
  match goal with |- _ = mapM ?f _ => set (F := f) end.
  generalize (@new_obj T) as o. generalize 0%nat as i.
  induction mcs as [|mc mcs IH]; intros i o; [reflexivity|]. cbn [mc_vs_b_loop length seq combine mapM fst snd].
  unfold F at 1. cbn [fst snd]. unfold estimate_b. pose proof (std_any srt k wn (draws i) (with_kw mags mc delta kw) o new_obj) as H.
  destruct (calculate srt k wn _ o) as [p1 r1]. destruct (calculate srt k wn _ new_obj) as [p2 r2]. destruct H as [<- H].
  destruct r1 as [b|e]; [|reflexivity]. destruct (H b eq_refl) as (Eb & _ & Es). cbn [rbind]. rewrite Eb.
  destruct (b_value p2) as [v|]; [|reflexivity]. cbn [rbind].
  assert (SS : match k with BMorePositive => more_positive_std srt wn (draws i) p2 | _ => est_std p2 end = std_of srt k wn (draws i) p1) by (rewrite Es; destruct k; reflexivity).
  replace (match k, PB with BMorePositive, PB => more_positive_std srt wn (draws i) p2 | BMorePositive, _ => rmap b_value_to_beta (more_positive_std srt wn (draws i) p2) | _, PB => est_std p2 | _, _ => est_std_beta p2 end) with (std_of srt k wn (draws i) p1) by (rewrite <- SS; destruct k; reflexivity).
  destruct (std_of srt k wn (draws i) p1) as [s|]; [|reflexivity]. cbn [rbind rmap]. specialize (IH (S i) p1).
  destruct (mc_vs_b_loop srt k wn draws mags delta kw (S i) mcs p1) as [l|]; cbn [rbind] in IH |- *; rewrite <- IH; reflexivity.
Qed.
Print Assumptions C128_points_are_estimates.

(** ** C129: b-values of running windows *)
Open Scope R_scope.
(** an event: magnitude (possibly NaN), time, completeness magnitude, position *)
Notation bev := (xr * R * R * R)%type.
Definition bv_m (e : bev) : xr := fst (fst (fst e)).
Definition bv_t (e : bev) : R := snd (fst (fst e)).
Definition bv_c (e : bev) : R := snd (fst e).
Definition bv_x (e : bev) : R := snd e.
Definition bv_complete (delta : dec) (e : bev) : bool := nleb (Fin (bv_c e - decR delta / 2)) (bv_m e).
(** number of events of a window before the one where its b-value is plotted *)
Definition offset (tech : technique) (n : nat) (k : nat) : Prop :=
  match tech with TLeft => k = 0%nat | TMidpoint => k = (n / 2)%nat | TRight => S k = n | TOther => False end.

(** value and uncertainty for a window: the estimator is given the magnitudes in time order
    and the largest completeness magnitude of the window *)
Definition window_estimate srt k wn (draws : list (list nat)) delta kw (min_num : nat) (win : list bev) (v s : xr) : Prop :=
  exists sorted mc o b n, Permutation sorted win /\ StronglySorted (fun a b => bv_t a <= bv_t b) sorted /\ is_max mc (map bv_c win) /\
    calculate srt k wn (with_kw (map bv_m sorted) (Fin mc) delta kw) new_obj = (o, Ok b) /\ est_n o = Ok n /\
    ((n < min_num)%nat -> v = NaN /\ s = NaN) /\
    ((min_num <= n)%nat -> b_value o = Ok v /\ std_of srt k wn draws o = Ok s).
Definition window_raises srt k wn (draws : list (list nat)) delta kw (min_num : nat) (win : list bev) (e : exn) : Prop :=
  exists sorted mc, Permutation sorted win /\ StronglySorted (fun a b => bv_t a <= bv_t b) sorted /\ is_max mc (map bv_c win) /\
    let '(o, r) := calculate srt k wn (with_kw (map bv_m sorted) (Fin mc) delta kw) new_obj in
    r = Err e \/ (exists b n, r = Ok b /\ est_n o = Ok n /\ (min_num <= n)%nat /\ std_of srt k wn draws o = Err e).

Section Series.
  Context (srt : list xr -> list nat) (Hs : argsort_ok srt) (k : kind) (wn : bool) (draws : nat -> list (list nat)) (delta : dec) (kw : @bkwargs xr)
    (n_m min_num : nat).
  Definition window_one (ev : list bev) (ii : nat) : res (xr * xr) :=
    let? mw := gather (slice ii (ii + n_m) (map bv_m ev)) (srt (slice ii (ii + n_m) (map (fun e => Fin (bv_t e)) ev))) in
    let? cw := gather (slice ii (ii + n_m) (map (fun e => Fin (bv_c e)) ev)) (srt (slice ii (ii + n_m) (map (fun e => Fin (bv_t e)) ev))) in
    let? mc := pymax cw in
    let '(o', r) := calculate srt k wn (with_kw mw mc delta kw) new_obj in
    let? _ := r in
    let? n := est_n o' in
    if (n <? min_num)%nat then Ok (NaN, NaN)
    else let? v := b_value o' in let? s := std_of srt k wn (draws ii) o' in Ok (v, s).
  Lemma series_fresh ev iis : forall o,
    series_loop srt k wn draws delta kw n_m min_num (map bv_m ev) (map (fun e => Fin (bv_t e)) ev) (map (fun e => Fin (bv_c e)) ev) iis o
    = mapM (window_one ev) iis.
  Proof.
    induction iis as [|ii iis IH]; intros o; [reflexivity|]. cbn [series_loop mapM]. unfold window_one at 1.
    destruct (gather _ _) as [mw|]; [|reflexivity]. cbn [rbind]. destruct (gather (slice ii (ii + n_m) (map (fun e => Fin (bv_c e)) ev)) _) as [cw|]; [|reflexivity]. cbn [rbind].
    destruct (pymax cw) as [mc|]; [|reflexivity]. cbn [rbind].
    pose proof (std_any srt k wn (draws ii) (with_kw mw mc delta kw) o new_obj) as H.
    destruct (calculate srt k wn _ o) as [p1 r1]. destruct (calculate srt k wn _ new_obj) as [p2 r2]. destruct H as [<- H].
    destruct r1 as [b|e]; [|reflexivity]. destruct (H b eq_refl) as (Eb & En & Es). cbn [rbind]. rewrite Eb, En, Es, IH.
    destruct (est_n p2) as [n|]; [|reflexivity]. cbn [rbind]. destruct (n <? min_num)%nat; [reflexivity|].
    destruct (b_value p2); [|reflexivity]. cbn [rbind]. reflexivity.
  Qed.
  Lemma slice_map {A B} (f : A -> B) i j l : slice i j (map f l) = map f (slice i j l).
  Proof. unfold slice. rewrite skipn_map, firstn_map. reflexivity. Qed.
  Lemma window_one_spec ev ii : slice ii (ii + n_m) ev <> [] ->
    match window_one ev ii with
    | Ok (v, s) => window_estimate srt k wn (draws ii) delta kw min_num (slice ii (ii + n_m) ev) v s
    | Err e => window_raises srt k wn (draws ii) delta kw min_num (slice ii (ii + n_m) ev) e
    end.
  Proof.
    intros Hne. unfold window_one. rewrite !slice_map. set (win := slice ii (ii + n_m) ev) in *.
    destruct (sort_gather_by srt bv_t win Hs) as (so & G & P & S). rewrite !gather_map, G. cbn [rmap rbind].
    assert (exists mc, pymax (map (fun e => Fin (bv_c e)) so) = Ok (Fin mc) /\ is_max mc (map bv_c win)) as (mc & -> & Hmc).
    { destruct so as [|e0 so]; [apply Permutation_nil in P; congruence|].
      destruct (pymax_fin (bv_c e0) (map bv_c so)) as (mc & E & A & B). change (bv_c e0 :: map bv_c so) with (map bv_c (e0 :: so)) in *. rewrite map_map in E.
      exists mc. split; [exact E|]. split.
      - apply (Permutation_in mc (Permutation_map bv_c P)). exact A.
      - intros v Hv. apply B. apply (Permutation_in v (Permutation_sym (Permutation_map bv_c P))). exact Hv. }
    cbn [rbind]. unfold window_estimate, window_raises.
    destruct (calculate srt k wn (with_kw (map bv_m so) (Fin mc) delta kw) new_obj) as [o r] eqn:C.
    destruct r as [b|e]; cbn [rbind].
    2:{ exists so, mc. rewrite C. auto. }
    assert (V : exists v, b_value o = Ok v). { apply calculate_inv in C. destruct C as (u & R & Eb & F). destruct F as (F1 & F2 & F3 & F4 & F5 & F6 & _). unfold b_value. rewrite F6. eexists. reflexivity. }
    destruct V as (v & V). assert (exists n, est_n o = Ok n) as (n & En) by (unfold est_n; rewrite V; eexists; reflexivity).
    rewrite En. cbn [rbind]. destruct (Nat.ltb_spec n min_num) as [L|L].
    - exists so, mc, o, b, n. split; [exact P|]. split; [exact S|]. split; [exact Hmc|]. split; [exact C|]. split; [exact En|]. split; intros; [try lia; auto|try lia; auto].
    - rewrite V. cbn [rbind]. destruct (std_of srt k wn (draws ii) o) as [s|e] eqn:Es; cbn [rbind].
      + exists so, mc, o, b, n. split; [exact P|]. split; [exact S|]. split; [exact Hmc|]. split; [exact C|]. split; [exact En|]. split; intros; [try lia; auto|try lia; auto].
      + exists so, mc. rewrite C. split; [exact P|]. split; [exact S|]. split; [exact Hmc|]. right. exists b, n. auto.
  Qed.
End Series.

Lemma mapM_ok {A B} (f : A -> res B) l r : mapM f l = Ok r -> Forall2 (fun x y => f x = Ok y) l r.
Proof.
  revert r. induction l as [|x l IH]; intros r; cbn [mapM].
  - intros E. injection E as <-. constructor.
  - destruct (f x) as [y|] eqn:Ex; [|discriminate]. cbn [rbind]. destruct (mapM f l) as [ys|]; [|discriminate]. cbn [rbind]. intros E. injection E as <-.
    constructor; [exact Ex|]. apply IH. reflexivity.
Qed.
Lemma mapM_err {A B} (f : A -> res B) l e : mapM f l = Err e -> exists x, In x l /\ f x = Err e.
Proof.
  induction l as [|x l IH]; cbn [mapM]; [discriminate|].
  destruct (f x) as [y|e'] eqn:Ex; cbn [rbind].
  - destruct (mapM f l) as [ys|e'']; cbn [rbind]; [discriminate|]. intros E. destruct (IH E) as (z & Hz & Ez). exists z. split; [right; exact Hz|exact Ez].
  - intros E. injection E as <-. exists x. split; [left; reflexivity|exact Ex].
Qed.
Lemma Forall2_nth_l {A B} (P : A -> B -> Prop) l l' i x : Forall2 P l l' -> nth_error l i = Some x -> exists y, nth_error l' i = Some y /\ P x y.
Proof.
  intros F. revert i. induction F as [|a b l l' H F IH]; intros [|i] E; try discriminate.
  - injection E as <-. exists b. split; [reflexivity|exact H].
  - apply IH. exact E.
Qed.
Lemma compress_map {A B} (p : A -> bool) (f : A -> B) l : compress (map p l) (map f l) = map f (filter p l).
Proof. induction l as [|x l IH]; [reflexivity|]. cbn. destruct (p x); cbn; rewrite IH; reflexivity. Qed.
Lemma map2_maps {A B C D} (f : B -> C -> D) (g : A -> B) (h : A -> C) l : map2 f (map g l) (map h l) = map (fun x => f (g x) (h x)) l.
Proof. induction l as [|x l IH]; [reflexivity|]. cbn. rewrite IH. reflexivity. Qed.
Lemma nth_error_map2 {A B C} (f : A -> B -> C) l l' i x y : nth_error l i = Some x -> nth_error l' i = Some y -> nth_error (map2 f l l') i = Some (f x y).
Proof. revert l' i. induction l as [|a l IH]; intros [|b l'] [|i] E F; try discriminate; cbn in *; [congruence|auto]. Qed.
Lemma slice_nonempty {A} i n (l : list A) : (0 < n)%nat -> (i + n <= length l)%nat -> slice i (i + n) l <> [].
Proof.
  intros Hn H E. apply (f_equal (@length _)) in E. unfold slice in E. rewrite firstn_length, skipn_length in E. cbn in E. lia.
Qed.

(** the curve of a series of complete events, in the order of the plot *)
Definition series_curve srt k wn (draws : nat -> list (list nat)) delta kw (n_m min_num : nat) (tech : technique) (z : xr) (kept : list bev) (r : list (xr * xr * xr * xr)) : Prop :=
  length r = length kept /\
  forall i e off, nth_error kept i = Some e -> offset tech n_m off ->
    exists v s, nth_error r i = Some (point z (Fin (bv_x e)) v s) /\
      ((off <= i /\ (i - off) + n_m <= length kept)%nat ->
         window_estimate srt k wn (draws (i - off)%nat) delta kw min_num (firstn n_m (skipn (i - off) kept)) v s) /\
      ((i < off \/ length kept < (i - off) + n_m)%nat -> v = NaN /\ s = NaN).

Section Curve.
  Context (srt : list xr -> list nat) (Hs : argsort_ok srt) (ppf : xr -> xr) (k : kind) (wn : bool) (draws : nat -> list (list nat)) (delta : dec) (kw : @bkwargs xr)
    (n_m min_num : nat) (tech : technique) (confidence : xr).
  Let z := ppf (ndiv (nadd one confidence) two).
  Definition series_core (start : nat) (kept : list bev) : res (list (xr * xr * xr * xr)) :=
    let? vs := series_loop srt k wn draws delta kw n_m min_num (map bv_m kept) (map (fun e => Fin (bv_t e)) kept) (map (fun e => Fin (bv_c e)) kept)
                 (seq 0 (length (map bv_m kept) + 1 - n_m)) new_obj in
    Ok (map2 (band z) (map (fun e => Fin (bv_x e)) kept) (place (length (map bv_m kept)) start vs)).
  Lemma series_core_spec start kept : (0 < n_m)%nat -> offset tech n_m start ->
    match series_core start kept with
    | Ok r => series_curve srt k wn draws delta kw n_m min_num tech z kept r
    | Err e => exists ii, (ii + n_m <= length kept)%nat /\ window_raises srt k wn (draws ii) delta kw min_num (firstn n_m (skipn ii kept)) e
    end.
  Proof.
    intros Hn Ho. unfold series_core. rewrite series_fresh, map_length.
    assert (SL : forall ii, slice ii (ii + n_m) kept = firstn n_m (skipn ii kept)) by (intros ii; unfold slice; f_equal; lia).
    destruct (mapM _ _) as [vs|e] eqn:M; cbn [rbind].
    2:{ apply mapM_err in M. destruct M as (ii & Hi & E). apply in_seq in Hi. exists ii. split; [lia|].
        pose proof (window_one_spec srt Hs k wn draws delta kw n_m min_num kept ii) as W. rewrite E in W. rewrite <- SL. apply W. apply slice_nonempty; lia. }
    apply mapM_ok in M.
    assert (LV : length vs = (length kept + 1 - n_m)%nat).
    { clear -M. assert (G : forall A B (P : A -> B -> Prop) l l', Forall2 P l l' -> length l' = length l) by (intros A B P l l' F; induction F; cbn; congruence).
      rewrite (G _ _ _ _ _ M), seq_length. reflexivity. }
    split.
    { clear -vs. assert (G : forall A B C (f : A -> B -> C) l l', length l' = length l -> length (map2 f l l') = length l)
        by (intros A B C f l; induction l as [|a l IH]; intros [|b l'] H; cbn in *; try lia; rewrite IH; lia).
      rewrite G; rewrite ?map_length; [reflexivity|]. unfold place. rewrite map_length, seq_length. reflexivity. }
    intros i e off He Hoff.
    assert (off = start) as -> by (unfold offset in *; destruct tech; try lia; contradiction).
    assert (Li : (i < length kept)%nat) by (apply nth_error_Some; congruence).
    set (p := if (i <? start)%nat then (@nnan xr _, @nnan xr _) else nth (i - start) vs (nnan, nnan)).
    assert (NP : nth_error (place (length kept) start vs) i = Some p).
    { unfold place. rewrite nth_error_map, (nth_error_nth' _ 0%nat), seq_nth by (rewrite ?seq_length; lia). reflexivity. }
    assert (NX : nth_error (map (fun e => Fin (bv_x e)) kept) i = Some (Fin (bv_x e))) by (rewrite nth_error_map, He; reflexivity).
    exists (fst p), (snd p). split; [rewrite (nth_error_map2 _ _ _ _ _ _ NX NP); reflexivity|].
    split.
    - intros [H1 H2]. unfold p. destruct (Nat.ltb_spec i start); [lia|].
      assert (NS : nth_error (seq 0 (length kept + 1 - n_m)) (i - start) = Some (i - start)%nat).
      { rewrite (nth_error_nth' _ 0%nat), seq_nth by (rewrite ?seq_length; lia). reflexivity. }
      destruct (Forall2_nth_l _ _ _ _ _ M NS) as (y & Ny & Ey). rewrite (nth_error_nth _ _ _ Ny).
      pose proof (window_one_spec srt Hs k wn draws delta kw n_m min_num kept (i - start)) as W. rewrite Ey, SL in W. destruct y as [v s].
      apply W. rewrite <- SL. apply slice_nonempty; lia.
    - intros H. unfold p. destruct (Nat.ltb_spec i start) as [L|L]; [split; reflexivity|].
      rewrite nth_overflow by lia. split; reflexivity.
  Qed.

  Lemma sorted_unique_by (f : bev -> R) (a b : list bev) : StronglySorted (fun x y => f x <= f y) a -> StronglySorted (fun x y => f x < f y) b -> Permutation a b -> a = b.
  Proof.
    intros Sa Sb P. apply (sorted_perm_unique (fun x y => f x <= f y)).
    - intros x y Hx Hy R1 R2. apply (Permutation_in _ P) in Hx, Hy. clear -Sb Hx Hy R1 R2. induction Sb as [|w l S IH F]; [destruct Hx|]. rewrite Forall_forall in F.
      destruct Hx as [->|Hx], Hy as [->|Hy]; auto; [apply F in Hy|apply F in Hx]; lra.
    - exact Sa.
    - clear -Sb. induction Sb as [|w l S IH F]; constructor; [exact IH|]. rewrite Forall_forall in *. intros x Hx. apply F in Hx. lra.
    - exact P.
  Qed.

  Lemma keep_complete (so : list bev) (start : nat) :
    (let idx := map2 (fun m c => nleb (nsub c (ndiv (dec_val delta) two)) m) (map bv_m so) (map (fun e => Fin (bv_c e)) so) in
     let mags := compress idx (map bv_m so) in
     let times := compress idx (map (fun e => Fin (bv_t e)) so) in
     let mcs := compress idx (map (fun e => Fin (bv_c e)) so) in
     let xs := compress idx (map (fun e => Fin (bv_x e)) so) in
     let n := length mags in
     let? vs := series_loop srt k wn draws delta kw n_m min_num mags times mcs (seq 0 (n + 1 - n_m)) new_obj in
     Ok (map2 (band (ppf (ndiv (nadd one confidence) two))) xs (place n start vs)))
    = series_core start (filter (bv_complete delta) so).
  Proof.
    cbv zeta. rewrite map2_maps.
    assert (E : map (fun e => nleb (nsub (Fin (bv_c e)) (ndiv (dec_val delta) two)) (bv_m e)) so = map (bv_complete delta) so).
    { apply map_ext. intros e. unfold bv_complete. rewrite half_fin, x_sub. reflexivity. }
    rewrite E, !compress_map. reflexivity.
  Qed.
End Curve.

Definition band_factor (ppf : xr -> xr) (confidence : xr) : xr := ppf (ndiv (nadd one confidence) two).
Definition some_window_raises srt k wn (draws : nat -> list (list nat)) delta kw (n_m min_num : nat) (kept : list bev) (e : exn) : Prop :=
  exists ii, (ii + n_m <= length kept)%nat /\ window_raises srt k wn (draws ii) delta kw min_num (firstn n_m (skipn ii kept)) e.

(** with [x_variable]: the events are sorted along it (here without ties), the incomplete ones
    are dropped, and each window of [n_m] events gives one point; an exception comes from the
    estimator *)
Theorem C129_series : forall srt ppf k wn draws delta kw n_m min_num tech off confidence (ev sorted : list bev),
  argsort_ok srt -> (0 < n_m)%nat -> (min_num <= n_m)%nat -> offset tech n_m off ->
  Permutation sorted ev -> StronglySorted (fun a b => bv_x a < bv_x b) sorted ->
  let kept := filter (bv_complete delta) sorted in
  match plot_b_series srt ppf k wn draws (map bv_m ev) delta (Array (map (fun e => Fin (bv_c e)) ev)) (map (fun e => Fin (bv_t e)) ev) n_m min_num
          (Some (map (fun e => Fin (bv_x e)) ev)) tech kw confidence with
  | Ok r => series_curve srt k wn draws delta kw n_m min_num tech (band_factor ppf confidence) kept r
  | Err e => some_window_raises srt k wn draws delta kw n_m min_num kept e
  end.
Proof.
  intros srt ppf k wn draws delta kw n_m min_num tech off confidence ev sorted Hs Hn Hm Ho P S kept.
  unfold plot_b_series. destruct (Nat.ltb_spec n_m min_num); [lia|]. rewrite !map_length, !Nat.eqb_refl. cbn [negb].
  destruct (sort_gather_by srt bv_x ev Hs) as (ev' & G & P' & S').
  assert (ev' = sorted) as -> by (apply (sorted_unique_by bv_x); [exact S'|exact S|]; eapply Permutation_trans; [exact P'|apply Permutation_sym; exact P]).
  rewrite !gather_map, G. cbn [rmap rbind].
  assert (ST : match tech with TLeft => Ok 0%nat | TMidpoint => Ok (n_m / 2)%nat | TRight => Ok (n_m - 1)%nat | TOther => Err ValueError end = Ok off).
  { unfold offset in Ho. destruct tech; try contradiction; f_equal; lia. }
  rewrite ST. cbn [rbind]. rewrite !map_length, Nat.eqb_refl. cbn [negb].
  pose proof (keep_complete srt ppf k wn draws delta kw n_m min_num confidence sorted off) as K. cbv zeta in K. cbv zeta. rewrite K. fold kept.
  apply (series_core_spec srt Hs ppf k wn draws delta kw n_m min_num tech confidence off kept Hn Ho).
Qed.
Print Assumptions C129_series.
(** without [x_variable]: the order of the input, plotted against the number of the event *)
Theorem C129_series_by_index : forall srt ppf k wn draws delta kw n_m min_num tech off confidence (ev : list bev),
  argsort_ok srt -> (0 < n_m)%nat -> (min_num <= n_m)%nat -> offset tech n_m off ->
  map bv_x ev = map INR (seq 0 (length ev)) ->
  let kept := filter (bv_complete delta) ev in
  match plot_b_series srt ppf k wn draws (map bv_m ev) delta (Array (map (fun e => Fin (bv_c e)) ev)) (map (fun e => Fin (bv_t e)) ev) n_m min_num None tech kw confidence with
  | Ok r => series_curve srt k wn draws delta kw n_m min_num tech (band_factor ppf confidence) kept r
  | Err e => some_window_raises srt k wn draws delta kw n_m min_num kept e
  end.
Proof.
  intros srt ppf k wn draws delta kw n_m min_num tech off confidence ev Hs Hn Hm Ho X kept.
  unfold plot_b_series. destruct (Nat.ltb_spec n_m min_num); [lia|]. rewrite !map_length, !Nat.eqb_refl. cbn [negb rbind].
  assert (XS : map ofnat (seq 0 (length ev)) = map (fun e => Fin (bv_x e)) ev).
  { rewrite <- (map_map bv_x Fin), X, map_map. apply map_ext. intros i. unfold ofnat. rewrite x_ofZ. apply f_equal. symmetry. apply INR_IZR_INZ. }
  assert (ST : match tech with TLeft => Ok 0%nat | TMidpoint => Ok (n_m / 2)%nat | TRight => Ok (n_m - 1)%nat | TOther => Err ValueError end = Ok off).
  { unfold offset in Ho. destruct tech; try contradiction; f_equal; lia. }
  rewrite ST, XS. cbn [rbind]. rewrite !map_length, Nat.eqb_refl. cbn [negb].
  pose proof (keep_complete srt ppf k wn draws delta kw n_m min_num confidence ev off) as K. cbv zeta in K. cbv zeta. rewrite K. fold kept.
  apply (series_core_spec srt Hs ppf k wn draws delta kw n_m min_num tech confidence off kept Hn Ho).
Qed.
Print Assumptions C129_series_by_index.
Theorem C129_scalar_mc : forall srt ppf k wn draws mags delta c times n_m min_num x tech kw confidence,
  plot_b_series srt ppf k wn draws mags delta (Scalar (Fin c)) times n_m min_num x tech kw confidence
  = plot_b_series srt ppf k wn draws mags delta (Array (repeat (Fin c) (length mags))) times n_m min_num x tech kw confidence.
Proof.
  intros. unfold plot_b_series. replace (nmul (@one xr _) (Fin c)) with (Fin c); [reflexivity|]. change (@one xr XR) with (Fin 1). rewrite x_mul. apply f_equal. lra.
Qed.
Print Assumptions C129_scalar_mc.
Theorem C129_errors : forall T (N : Num T) srt ppf k wn draws (mags : list T) delta mc times n_m min_num x tech kw confidence,
  ((n_m < min_num)%nat -> plot_b_series srt ppf k wn draws mags delta mc times n_m min_num x tech kw confidence = Err ValueError) /\
  ((min_num <= n_m)%nat -> length mags <> length times -> plot_b_series srt ppf k wn draws mags delta mc times n_m min_num x tech kw confidence = Err IndexError) /\
  (forall xs, (min_num <= n_m)%nat -> x = Some xs -> length xs <> length mags ->
     plot_b_series srt ppf k wn draws mags delta mc times n_m min_num x tech kw confidence = Err IndexError) /\
  (tech = TOther -> forall r, plot_b_series srt ppf k wn draws mags delta mc times n_m min_num x tech kw confidence <> Ok r).
Proof.
  intros T N srt ppf k wn draws mags delta mc times n_m min_num x tech kw confidence. unfold plot_b_series.
  destruct (Nat.ltb_spec n_m min_num) as [L|L].
  { split; [reflexivity|]. split; [lia|]. split; [lia|discriminate]. }
  split; [lia|]. destruct (Nat.eqb_spec (length mags) (length times)) as [E|E]; cbn [negb].
  2:{ split; [reflexivity|]. split; [reflexivity|discriminate]. }
  split; [congruence|]. split.
  - intros xs _ -> H. destruct (Nat.eqb_spec (length xs) (length mags)); [contradiction|]. reflexivity.
  - intros -> r. destruct (match x with None => _ | Some _ => _ end) as [[[[? ?] ?] ?]|]; cbn [rbind]; discriminate.
Qed.
Print Assumptions C129_errors.

(** ** C130: the significance plot *)
Lemma enough_samples L n : (0 < n)%nat -> nltb (ndiv (@ofnat xr _ L) (ofnat n)) (ofZ 15) = (L <? 15 * n)%nat.
Proof.
  intros Hn. assert (Hn' : 0 < INR n) by (apply lt_0_INR; exact Hn).
  unfold ofnat. change (@ofZ xr _) with (fun z => Fin (IZR z)). cbv beta. rewrite <- !INR_IZR_INZ. rewrite x_div by lra. rewrite x_ltb.
  destruct (Nat.ltb_spec L (15 * n)) as [C|C]; [apply rlt_true; apply lt_INR in C|apply rlt_false; apply le_INR in C]; rewrite mult_INR in C;
    (replace (INR 15) with 15 in C by (cbn; lra)).
  - apply (Rmult_lt_reg_r (INR n)); [lra|]. unfold Rdiv. rewrite Rmult_assoc, Rinv_l; lra.
  - apply (Rmult_le_reg_r (INR n)); [lra|]. unfold Rdiv. rewrite Rmult_assoc, Rinv_l; lra.
Qed.
Lemma map2_compress_self {T} (f : T -> T -> bool) : forall a b, length a = length b ->
  let idx := map2 f a b in
  map2 f (compress idx a) (compress idx b) = map (fun _ => true) (compress idx a).
Proof.
  induction a as [|x a IH]; intros [|y b] L; cbn in L; try lia; [reflexivity|]. cbn. destruct (f x y) eqn:E; cbn; rewrite ?E; rewrite IH by lia; reflexivity.
Qed.
Lemma compress_true {A B} (a : list A) (l : list B) : length l = length a -> compress (map (fun _ => true) a) l = l.
Proof. revert l. induction a as [|x a IH]; intros [|y l] L; cbn in *; try lia; [reflexivity|]. rewrite IH by lia. reflexivity. Qed.
Lemma compress_len {A B} m (a : list A) (b : list B) : length a = length b -> length (compress m a) = length (compress m b).
Proof. revert a b. induction m as [|c m IH]; intros [|x a] [|y b] L; cbn in *; try lia. destruct c; cbn; rewrite (IH a b) by lia; lia. Qed.
Lemma gather_len {A} (xs : list A) idx r : gather xs idx = Ok r -> length r = length idx.
Proof.
  revert r. induction idx as [|i idx IH]; intros r; cbn; [intros E; injection E as <-; reflexivity|].
  destruct (nth_error xs i); [|discriminate]. destruct (gather xs idx) as [l|]; [|discriminate]. cbn. intros E. injection E as <-. cbn. rewrite (IH l eq_refl). reflexivity.
Qed.

(** Whatever the arguments are, each point is what [b_significant_1D] returns for them, or NaN. *)
Theorem C130_points_or_nan : forall T (N : Num T) srt cdf m wn kw draws (mags mcs times : list T) delta n_ms min_num x cons r,
  length times = length mags -> (forall n, In n n_ms -> (min_num <= n)%nat) ->
  plot_b_significant_1D srt cdf m wn kw draws mags (Array mcs) delta times n_ms min_num x cons = Ok r ->
  Forall2 (fun n p => p = (nnan, nnan, nnan, nnan) \/
                      b_significant_1D srt cdf m wn kw (draws n) mags (Array mcs) delta times n min_num x cons = Ok p) n_ms r.
Proof.
  intros T N srt cdf m wn kw draws mags mcs times delta n_ms min_num x cons r Lt Hmin. unfold plot_b_significant_1D, b_significant_1D.
  set (srtd := match x with None => Ok (mags, times) | Some xs => if negb (length xs =? length mags)%nat then Err ValueError
      else let? m' := gather mags (srt xs) in let? t' := gather times (srt xs) in Ok (m', t') end).
  assert (Q : forall m' t', srtd = Ok (m', t') -> length t' = length m').
  { intros m' t'. unfold srtd. destruct x as [xs|]; [|intros E; injection E as <- <-; exact Lt].
    destruct (negb _); [discriminate|]. destruct (gather mags (srt xs)) as [g1|] eqn:G1; [|discriminate]. destruct (gather times (srt xs)) as [g2|] eqn:G2; [|discriminate].
    cbn. intros E. injection E as <- <-. rewrite (gather_len _ _ _ G1), (gather_len _ _ _ G2). reflexivity. }
  destruct srtd as [[m' t']|] eqn:Es; [|discriminate]. specialize (Q m' t' eq_refl). cbn [rbind].
  destruct (length mcs =? length m')%nat eqn:Lc; cbn [negb]; [|discriminate].
  set (idx := map2 (fun m0 c => nleb (nsub c (ndiv (dec_val delta) two)) m0) m' mcs).
  destruct (negb (length idx =? length t')%nat); [discriminate|]. intros M. apply mapM_ok in M.
  assert (G : forall n p, In n n_ms ->
    (if (n =? 0)%nat then Err ZeroDivisionError
     else if nltb (ndiv (ofnat (length (compress idx m'))) (ofnat n)) (ofZ 15) then Ok (nnan, nnan, nnan, nnan)
     else let? (mags0, times0, mc0) := prepare_1D srt (compress idx m') (Array (compress idx mcs)) delta (compress idx t') n min_num None in
          if (n =? 0)%nat then Err ZeroDivisionError
          else if nltb (ndiv (ofnat (length mags0)) (ofnat n)) (ofZ 3) then Ok (nnan, nnan, nnan, nnan)
          else let? acs := mapM (fun ii => let? p := partition1 mags0 times0 mc0 n ii in ac_one srt m wn kw (draws n ii) delta min_num p) (seq 0 n) in Ok (summary cdf cons acs)) = Ok p ->
    p = (nnan, nnan, nnan, nnan) \/
    (let? (mags0, times0, mc0) := prepare_1D srt mags (Array mcs) delta times n min_num x in
          if (n =? 0)%nat then Err ZeroDivisionError
          else if nltb (ndiv (ofnat (length mags0)) (ofnat n)) (ofZ 3) then Ok (nnan, nnan, nnan, nnan)
          else let? acs := mapM (fun ii => let? p := partition1 mags0 times0 mc0 n ii in ac_one srt m wn kw (draws n ii) delta min_num p) (seq 0 n) in Ok (summary cdf cons acs)) = Ok p).
  { intros n p Hn. specialize (Hmin n Hn). destruct (n =? 0)%nat eqn:Z; [discriminate|].
    destruct (nltb _ (ofZ 15)); [intros E; left; congruence|]. intros E. right.
    assert (P1 : prepare_1D srt (compress idx m') (Array (compress idx mcs)) delta (compress idx t') n min_num None = Ok (compress idx m', compress idx t', compress idx mcs)).
    { unfold prepare_1D. apply Nat.eqb_eq in Lc. rewrite (compress_len idx m' t') by congruence. rewrite Nat.eqb_refl, (proj2 (Nat.ltb_ge _ _) Hmin). cbn [negb rbind].
      rewrite (compress_len idx mcs m') by congruence. rewrite Nat.eqb_refl. cbn [negb].
      assert (MC : map2 (fun m0 c => nleb (nsub c (ndiv (dec_val delta) two)) m0) (compress idx m') (compress idx mcs) = map (fun _ => true) (compress idx m'))
        by (apply (map2_compress_self (fun m0 c => nleb (nsub c (ndiv (dec_val delta) two)) m0)); congruence).
      rewrite MC, !compress_true; [reflexivity|apply compress_len; congruence..|reflexivity]. }
    assert (P2 : prepare_1D srt mags (Array mcs) delta times n min_num x = Ok (compress idx m', compress idx t', compress idx mcs)).
    { unfold prepare_1D. rewrite Lt, Nat.eqb_refl, (proj2 (Nat.ltb_ge _ _) Hmin). cbn [negb]. fold srtd. rewrite Es. cbn [rbind]. rewrite Lc. reflexivity. }
    rewrite P1 in E. rewrite P2. exact E. }
  clear -M G. induction M as [|n p l r E M IH]; constructor.
  - apply G; [left; reflexivity|exact E].
  - apply IH. intros n' p' Hn. apply G. right. exact Hn.
Qed.
Print Assumptions C130_points_or_nan.
(** NaN stands for fewer than 15 samples of [n_m] complete magnitudes *)
Theorem C130_points : forall srt cdf m wn kw draws (ev : list event1) delta n_ms min_num cons,
  (forall n, In n n_ms -> (0 < n)%nat /\ (min_num <= n)%nat) ->
  plot_b_significant_1D srt cdf m wn kw draws (map ev_m ev) (Array (map ev_c ev)) delta (map ev_t ev) n_ms min_num None cons
  = mapM (fun n => if (length (complete1 delta ev) <? 15 * n)%nat then Ok (NaN, NaN, NaN, NaN)
                   else b_significant_1D srt cdf m wn kw (draws n) (map ev_m ev) (Array (map ev_c ev)) delta (map ev_t ev) n min_num None cons) n_ms.
Proof.
  intros srt cdf m wn kw draws ev delta n_ms min_num cons H. unfold plot_b_significant_1D. cbn [rbind]. rewrite !map_length, Nat.eqb_refl. cbn [negb].
  rewrite half_fin. rewrite map2_maps at 1. rewrite !map_length, Nat.eqb_refl. cbn [negb]. rewrite !compress_map2.
  fold (complete1 delta ev). apply mapM_ext_in. intros n Hn. destruct (H n Hn) as [H1 H2]. rewrite (proj2 (Nat.eqb_neq n 0)) by lia.
  rewrite map_length, enough_samples by exact H1. destruct (_ <? _)%nat; [reflexivity|].
  unfold b_significant_1D. rewrite !prepare_events by exact H2.
  assert (I : complete1 delta (complete1 delta ev) = complete1 delta ev).
  { unfold complete1. clear. induction ev as [|e ev IH]; [reflexivity|]. cbn [filter]. destruct (nleb _ (ev_m e)) eqn:E; cbn [filter]; rewrite ?E, IH; reflexivity. }
  rewrite I. reflexivity.
Qed.
Print Assumptions C130_points.
(** one completeness magnitude for all *)
Theorem C130_scalar_mc : forall srt cdf m wn kw draws mags c delta times n_ms min_num x cons,
  plot_b_significant_1D srt cdf m wn kw draws mags (Scalar (Fin c)) delta times n_ms min_num x cons
  = plot_b_significant_1D srt cdf m wn kw draws mags (Array (repeat (Fin c) (length mags))) delta times n_ms min_num x cons.
Proof. intros. unfold plot_b_significant_1D. replace (nmul one (Fin c)) with (Fin c); [reflexivity|]. rewrite x_one, x_mul. f_equal. ring. Qed.
Print Assumptions C130_scalar_mc.
(** with [x_variable] and one completeness magnitude the events are sorted along it first *)
Theorem C130_x_variable : forall srt cdf m wn kw draws (ev sorted : list (event1 * R)) c delta n_ms min_num cons, argsort_ok srt ->
  Permutation sorted ev -> StronglySorted (fun a b => snd a < snd b) sorted ->
  plot_b_significant_1D srt cdf m wn kw draws (map (fun e => ev_m (fst e)) ev) (Scalar c) delta (map (fun e => ev_t (fst e)) ev) n_ms min_num
    (Some (map (fun e => Fin (snd e)) ev)) cons
  = plot_b_significant_1D srt cdf m wn kw draws (map (fun e => ev_m (fst e)) sorted) (Scalar c) delta (map (fun e => ev_t (fst e)) sorted) n_ms min_num None cons.
Proof.
  intros srt cdf m wn kw draws ev sorted c delta n_ms min_num cons Hs P S. unfold plot_b_significant_1D.
  destruct (sort_gather_by srt (fun e : event1 * R => snd e) ev Hs) as (ev' & G & P' & S').
  assert (ev' = sorted) as ->.
  { apply (sorted_perm_unique (fun x y : event1 * R => snd x <= snd y)).
    - intros x y Hx Hy R1 R2. apply (Permutation_in _ (Permutation_trans P' (Permutation_sym P))) in Hx, Hy. clear -S Hx Hy R1 R2. induction S as [|w l S IH F]; [destruct Hx|]. rewrite Forall_forall in F.
      destruct Hx as [->|Hx], Hy as [->|Hy]; auto; [apply F in Hy|apply F in Hx]; lra.
    - exact S'.
    - clear -S. induction S as [|w l S IH F]; constructor; [exact IH|]. rewrite Forall_forall in *. intros x Hx. apply F in Hx. lra.
    - exact (Permutation_trans P' (Permutation_sym P)). }
  rewrite !map_length, Nat.eqb_refl. cbn [negb]. rewrite !gather_map, G. cbn [rmap rbind]. rewrite (Permutation_length P). reflexivity.
Qed.
Print Assumptions C130_x_variable.

(** ** the hypotheses hold for a small example *)
Definition ex_bev : list bev := [(Fin 2, 3, 1, 5); (Fin 1, 1, 1, 4); (Fin 0, 2, 1, 6)].
Example C129_example :
  argsort_ok xr_argsort /\ offset TMidpoint 2 1 /\
  StronglySorted (fun a b => bv_x a < bv_x b) [(Fin 1, 1, 1, 4); (Fin 2, 3, 1, 5); (Fin 0, 2, 1, 6)] /\
  Permutation [(Fin 1, 1, 1, 4); (Fin 2, 3, 1, 5); (Fin 0, 2, 1, 6)] ex_bev /\
  filter (bv_complete (mkdec 0 0)) [(Fin 1, 1, 1, 4); (Fin 2, 3, 1, 5); (Fin 0, 2, 1, 6)] = [(Fin 1, 1, 1, 4); (Fin 2, 3, 1, 5)].
Proof.
  split; [exact xr_argsort_ok|]. split; [reflexivity|]. split; [repeat constructor; cbn; lra|]. split; [apply perm_swap|].
  unfold bv_complete. cbn [filter bv_c bv_m fst snd]. rewrite decR0, !x_leb.
  rewrite (proj2 (rle_true (1 - 0 / 2) 1)), (proj2 (rle_true (1 - 0 / 2) 2)), (proj2 (rle_false (1 - 0 / 2) 0)) by lra. reflexivity.
Qed.
