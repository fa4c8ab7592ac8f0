(** * The methods of Catalog: binning, completeness, b-value, a-value: arguments and attributes *)
From Coq Require Import ZArith List Bool String Reals Lra.
From Verif Require Import Base Num XR StateM Dict Binning_model BValue_model AValue_model Mc_model Plots_model Utils_model
  Spec_Binning Binning_proofs Props_Binning Catalog_model Spec_Catalog.
Import ListNotations.
Open Scope string_scope.

(** ** C58 *)
Lemma dset_keys {V} (d : dict V) k v : dget d k <> None -> map fst (dset d k v) = map fst d.
Proof.
  induction d as [|[k' v'] d IH]; cbn [dget dset]; [intros H; elim H; reflexivity|].
  destruct (k =? k')%string eqn:E; cbn [map fst]; [apply String.eqb_eq in E; subst; reflexivity|].
  intros H. rewrite IH by exact H. reflexivity.
Qed.
Lemma rebinned_intro {T} (c : catalog T) old mags d : dget (c_cols c) "magnitude" = Some old ->
  rebinned c mags d (set_delta (set_cols c (dset (c_cols c) "magnitude" mags)) (Some d)).
Proof.
  intros H. unfold rebinned. cbn [set_delta set_cols c_cols c_delta c_mc c_b c_a]. split; [intros k; apply dget_dset|].
  split; [apply dset_keys; rewrite H; discriminate|]. auto.
Qed.
Section Bin.
  Context {T : Type} {N : Num T}.
  Lemma bin_magnitudes_eq (c : catalog T) mags delta d inplace : dget (c_cols c) "magnitude" = Some mags -> explicit_or delta (c_delta c) = Some d ->
    bin_magnitudes delta inplace c =
    match bin_to_precision (Some mags) d with
    | Err e => (c, Err e)
    | Ok mags' => let df := set_delta (set_cols c (dset (c_cols c) "magnitude" mags')) (Some d) in if inplace then (df, Ok None) else (c, Ok (Some df))
    end.
  Proof.
    intros Hm Hd. unfold bin_magnitudes, with_magnitude. rewrite Hm. destruct delta as [d'|]; cbn [explicit_or] in Hd.
    - injection Hd as ->. reflexivity.
    - rewrite Hd. reflexivity.
  Qed.
  (** whatever happens: the magnitudes of the result are the binned ones, all else stays, the
      catalogue itself changes only in place *)
  Theorem C58_bin_magnitudes_effects (c : catalog T) mags delta d : dget (c_cols c) "magnitude" = Some mags -> explicit_or delta (c_delta c) = Some d ->
    (forall mags', bin_to_precision (Some mags) d = Ok mags' ->
       exists r, rebinned c mags' d r /\ bin_magnitudes delta false c = (c, Ok (Some r)) /\ bin_magnitudes delta true c = (r, Ok None)) /\
    (forall e, bin_to_precision (Some mags) d = Err e -> forall inplace, bin_magnitudes delta inplace c = (c, Err e)).
  Proof.
    intros Hm Hd. split.
    - intros mags' E. exists (set_delta (set_cols c (dset (c_cols c) "magnitude" mags')) (Some d)).
      split; [exact (rebinned_intro c mags mags' d Hm)|]. rewrite !(bin_magnitudes_eq c mags delta d _ Hm Hd), E. split; reflexivity.
    - intros e E i. rewrite (bin_magnitudes_eq c mags delta d _ Hm Hd), E. reflexivity.
  Qed.
  Theorem C58_bin_magnitudes_errors (c : catalog T) inplace :
    (forall delta, dget (c_cols c) "magnitude" = None -> bin_magnitudes delta inplace c = (c, Err AttributeError)) /\
    (dget (c_cols c) "magnitude" <> None -> c_delta c = None -> bin_magnitudes None inplace c = (c, Err ValueError)).
  Proof.
    unfold bin_magnitudes, with_magnitude. split; [intros delta -> ; reflexivity|].
    intros H ->. destruct (dget (c_cols c) "magnitude"); [reflexivity | contradiction].
  Qed.
End Bin.
Section BinReal.
  Open Scope R_scope.
  (** with the real rounding: every magnitude goes to the grid value next to it *)
  Theorem C58_bin_magnitudes (c : catalog xr) xs delta d : dget (c_cols c) "magnitude" = Some (map Fin xs) ->
    explicit_or delta (c_delta c) = Some d -> epsR <= decR d ->
    exists ys r, Forall2 (near_grid (decR d)) xs ys /\ rebinned c (map Fin ys) d r /\
      bin_magnitudes delta false c = (c, Ok (Some r)) /\ bin_magnitudes delta true c = (r, Ok None).
  Proof.
    intros Hm Hd He. destruct (C01_bin_to_precision_nearest d xs He) as (ys & E & Hn).
    destruct (C58_bin_magnitudes_effects c (map Fin xs) delta d Hm Hd) as [H _]. destruct (H _ E) as (r & H1 & H2 & H3).
    exists ys, r. auto.
  Qed.
  (** binning again, without argument, changes nothing *)
  Theorem C58_bin_again (c : catalog xr) xs delta d r : dget (c_cols c) "magnitude" = Some (map Fin xs) ->
    explicit_or delta (c_delta c) = Some d -> epsR <= decR d -> bin_magnitudes delta true c = (r, Ok None) ->
    bin_magnitudes None true r = (r, Ok None).
  Proof.
    intros Hm Hd He E. rewrite (bin_magnitudes_eq c _ delta d true Hm Hd) in E.
    destruct (bin_to_precision (Some (map Fin xs)) d) as [ys|e] eqn:Eb; [|discriminate E].
    cbv beta iota zeta in E. injection E as <-.
    set (r := set_delta _ _).
    assert (Hr : dget (c_cols r) "magnitude" = Some ys) by (unfold r; cbn [set_delta set_cols c_cols]; rewrite dget_dset; reflexivity).
    rewrite (bin_magnitudes_eq r ys None d true Hr eq_refl).
    rewrite (C02_bin_idempotent d xs ys He Eb). cbv beta iota zeta. f_equal.
    unfold r. unfold set_delta, set_cols. cbn [c_cols c_delta c_mc c_b c_a]. f_equal.
    generalize (c_cols c). intros l. induction l as [|[k v] l IH]; cbn [dset].
    - reflexivity.
    - destruct ("magnitude" =? k)%string eqn:E; cbn [dset]; rewrite E; [reflexivity | f_equal; exact IH].
  Qed.
End BinReal.

Section Methods.
  Context {T : Type} {N : Num T}.
  Implicit Types (c : catalog T).

  (** ** C59: estimate_b *)
  Theorem C59_b_omitted_is_attribute srt wn (mc : option T) delta ws k kw c :
    cat_estimate_b srt wn mc delta ws k kw c = cat_estimate_b srt wn (explicit_or mc (c_mc c)) (explicit_or delta (c_delta c)) ws k kw c.
  Proof.
    unfold cat_estimate_b, with_magnitude. destruct (dget (c_cols c) "magnitude"); [|reflexivity].
    destruct mc, (c_mc c), delta, (c_delta c); reflexivity.
  Qed.
  (** explicit values, whatever they are, make the stored ones irrelevant *)
  Theorem C59_b_explicit_wins srt wn (mc : T) delta ws k kw c c' : c_cols c = c_cols c' ->
    snd (cat_estimate_b srt wn (Some mc) (Some delta) ws k kw c) = snd (cat_estimate_b srt wn (Some mc) (Some delta) ws k kw c').
  Proof.
    intros E. unfold cat_estimate_b, with_magnitude. rewrite E.
    destruct (dget (c_cols c') "magnitude"); [|reflexivity]. destruct k;
      repeat match goal with
      | |- snd (if ?b then _ else _) = _ => destruct b; [reflexivity|]
      | |- context [match kw_dmc kw with _ => _ end] => destruct (kw_dmc kw)
      | |- context [dget ?d "dmc"] => destruct (dget d "dmc")
      | |- snd (?x, ?y) = _ => reflexivity
      | |- context [calculate ?a ?b ?c0 ?d ?e] => destruct (calculate a b c0 d e) as [? [?|?]]
      | |- context [BValue_model.b_value ?o] => destruct (BValue_model.b_value o)
      end; try reflexivity.
  Qed.
  Theorem C59_b_missing srt wn (mc : option T) delta ws k kw c : dget (c_cols c) "magnitude" <> None ->
    explicit_or mc (c_mc c) = None \/ explicit_or delta (c_delta c) = None ->
    cat_estimate_b srt wn mc delta ws k kw c = (c, Err ValueError).
  Proof.
    intros Hm H. unfold cat_estimate_b, with_magnitude. destruct (dget (c_cols c) "magnitude"); [|contradiction].
    destruct mc, (c_mc c), delta, (c_delta c), H as [H|H]; cbn [explicit_or] in H; try discriminate H; reflexivity.
  Qed.
  Theorem C59_b_effects srt wn (mc : option T) delta ws k kw c :
    match cat_estimate_b srt wn mc delta ws k kw c with
    | (c', Ok o) => exists b, b_value o = Ok b /\ c_b c' = Some b /\ same_but_b c c'
    | (c', Err _) => c' = c
    end.
  Proof.
    unfold cat_estimate_b, with_magnitude. destruct (dget (c_cols c) "magnitude") as [mags|]; [|reflexivity].
    assert (G : forall mc delta w times dmc, let '(o, r) := calculate srt k wn (mkargs mags mc delta w times dmc) new_obj in
      match (match r with Err e => (c, Err e) | Ok _ => match b_value o with Err e => (c, Err e) | Ok b => (Catalog_model.set_b c (Some b), Ok o) end end) with
      | (c', Ok o) => exists b, b_value o = Ok b /\ c_b c' = Some b /\ same_but_b c c'
      | (c', Err _) => c' = c end).
    { intros m d w t dm. destruct (calculate _ _ _ _ _) as [o [v|e]]; [|reflexivity]. destruct (b_value o) as [b|e] eqn:Eb; [|reflexivity].
      exists b. split; [exact Eb|]. split; [reflexivity|]. repeat split. }
    assert (G' : forall mc delta w times dmc, match (let '(o, r) := calculate srt k wn (mkargs mags mc delta w times dmc) new_obj in
        match r with Err e => (c, Err e) | Ok _ => match b_value o with Err e => (c, Err e) | Ok b => (Catalog_model.set_b c (Some b), Ok o) end end) with
      | (c', Ok o) => exists b, b_value o = Ok b /\ c_b c' = Some b /\ same_but_b c c'
      | (c', Err _) => c' = c end).
    { intros m d w t dm. specialize (G m d w t dm). destruct (calculate _ _ _ _ _) as [o r]. exact G. }
    clear G.
    destruct mc as [m|], (c_mc c) as [m'|], delta as [d|], (c_delta c) as [d'|]; try reflexivity;
      (destruct (match k with Classic | Utsu => given_b kw | _ => false end); [reflexivity|]);
      destruct (kw_dmc kw), (dget (check_catalog_cols (b_args k) b_base_args (c_cols c)) "dmc"); try reflexivity; apply G'.
  Qed.

  (** ** C140: what reaches the estimator *)
  (** the times: the argument if given, else the column times, else the column time *)
  Definition times_used (explicit : option (option (list T))) (cols : dict (list T)) : option (list T) :=
    match explicit with
    | Some t => t
    | None => match dget cols "times" with Some t => Some t | None => dget cols "time" end
    end.
  Lemma cols_positive (cols : dict (list T)) k : k = BPositive \/ k = BMorePositive ->
    dget (check_catalog_cols (b_args k) b_base_args cols) "times" = (match dget cols "times" with Some t => Some t | None => dget cols "time" end) /\
    dget (check_catalog_cols (b_args k) b_base_args cols) "dmc" = dget cols "dmc".
  Proof.
    intros Hk. assert (E : check_catalog_cols (b_args k) b_base_args cols =
      fold_left (fun d p => match dget cols (snd p) with Some l => dset d (fst p) l | None => d end)
        [("times", "time"); ("dmc", "dmc"); ("times", "times"); ("dmc", "dmc")] []).
    { destruct Hk as [-> | ->]; reflexivity. }
    rewrite E. cbn [fold_left fst snd].
    destruct (dget cols "time"), (dget cols "dmc"), (dget cols "times"); split; reflexivity.
  Qed.
  Lemma cols_classic (cols : dict (list T)) k : k = Classic \/ k = Utsu -> check_catalog_cols (b_args k) b_base_args cols = [].
  Proof. intros [-> | ->]; reflexivity. Qed.

  Definition with_estimator (r : @obj T * res T) : res (@obj T) :=
    match r with (o, Ok _) => match b_value o with Ok _ => Ok o | Err e => Err e end | (_, Err e) => Err e end.
  Theorem C140_b_classic srt wn mc delta ws k c mags : k = Classic \/ k = Utsu -> dget (c_cols c) "magnitude" = Some mags ->
    snd (cat_estimate_b srt wn (Some mc) (Some delta) ws k (mkkwb None None) c) =
    with_estimator (calculate srt k wn (mkargs mags mc delta (explicit_or ws (dget (c_cols c) "weight")) None None) new_obj).
  Proof.
    intros Hk Hm. unfold cat_estimate_b, with_magnitude. rewrite Hm, (cols_classic (c_cols c) k Hk).
    replace (match k with Classic | Utsu => given_b (mkkwb None None) | _ => false end) with false by (destruct k; reflexivity).
    cbn [kw_times kw_dmc dget]. unfold explicit_or, with_estimator.
    destruct (calculate _ _ _ _ _) as [o [v|e]]; [|reflexivity]. destruct (b_value o); reflexivity.
  Qed.
  (** which do not take the arguments of the positive methods *)
  Theorem C140_b_classic_arguments srt wn mc delta ws k kw c : k = Classic \/ k = Utsu -> dget (c_cols c) "magnitude" <> None ->
    kw_times kw <> None \/ kw_dmc kw <> None -> cat_estimate_b srt wn (Some mc) (Some delta) ws k kw c = (c, Err TypeError).
  Proof.
    intros Hk Hm H. unfold cat_estimate_b, with_magnitude. destruct (dget (c_cols c) "magnitude"); [|contradiction].
    destruct Hk as [-> | ->]; destruct kw as [[t|] [d|]]; cbn in *; try reflexivity; destruct H as [H|H]; contradiction.
  Qed.
  Theorem C140_b_positive srt wn mc delta ws k kw c mags : k = BPositive \/ k = BMorePositive -> dget (c_cols c) "magnitude" = Some mags ->
    kw_dmc kw <> None \/ dget (c_cols c) "dmc" = None ->
    snd (cat_estimate_b srt wn (Some mc) (Some delta) ws k kw c) =
    with_estimator (calculate srt k wn (mkargs mags mc delta (explicit_or ws (dget (c_cols c) "weight")) (times_used (kw_times kw) (c_cols c))
      (match kw_dmc kw with Some d => d | None => None end)) new_obj).
  Proof.
    intros Hk Hm Hd. unfold cat_estimate_b, with_magnitude. rewrite Hm. destruct (cols_positive (c_cols c) k Hk) as [Ht Hc]. rewrite Ht, Hc.
    replace (match k with Classic | Utsu => given_b kw | _ => false end) with false by (destruct Hk as [-> | ->]; reflexivity).
    assert (G : forall dmc, snd (let '(o, r) := calculate srt k wn (mkargs mags mc delta (match ws with Some w => Some w | None => dget (c_cols c) "weight" end)
        (match kw_times kw with Some t => t | None => match dget (c_cols c) "times" with Some t => Some t | None => dget (c_cols c) "time" end end) dmc) new_obj in
        match r with Err e => (c, Err e) | Ok _ => match b_value o with Err e => (c, Err e) | Ok b => (Catalog_model.set_b c (Some b), Ok o) end end) =
      with_estimator (calculate srt k wn (mkargs mags mc delta (explicit_or ws (dget (c_cols c) "weight")) (times_used (kw_times kw) (c_cols c)) dmc) new_obj)).
    { intros dmc. unfold explicit_or, times_used, with_estimator. destruct (calculate _ _ _ _ _) as [o [v|e]]; [|reflexivity]. destruct (b_value o); reflexivity. }
    destruct (kw_dmc kw) as [d|]; [apply G|]. destruct Hd as [Hd|Hd]; [contradiction|]. rewrite Hd. apply G.
  Qed.
  (** a column called dmc, which the user may not have thought of, makes the positive methods
      fail unless dmc is given *)
  Theorem C140_b_dmc_column srt wn mc delta ws k kw c mags l : k = BPositive \/ k = BMorePositive -> dget (c_cols c) "magnitude" = Some mags ->
    kw_dmc kw = None -> dget (c_cols c) "dmc" = Some l -> cat_estimate_b srt wn (Some mc) (Some delta) ws k kw c = (c, Err ValueError).
  Proof.
    intros Hk Hm Hd Hl. unfold cat_estimate_b, with_magnitude. rewrite Hm. destruct (cols_positive (c_cols c) k Hk) as [_ Hc]. rewrite Hc, Hl, Hd.
    replace (match k with Classic | Utsu => given_b kw | _ => false end) with false by (destruct Hk as [-> | ->]; reflexivity). reflexivity.
  Qed.

  (** ** C138: estimate_a *)
  Theorem C138_a_omitted_is_attribute srt wn (mc : option T) delta s mref b k kw c :
    cat_estimate_a srt wn mc delta s mref b k kw c = cat_estimate_a srt wn (explicit_or mc (c_mc c)) (explicit_or delta (c_delta c)) s mref b k kw c.
  Proof.
    unfold cat_estimate_a, with_magnitude. destruct (dget (c_cols c) "magnitude"); [|reflexivity].
    destruct mc, (c_mc c), delta, (c_delta c); reflexivity.
  Qed.
  (** explicit values win; and the stored b-value is never used, not even if no b is given *)
  Theorem C138_a_explicit_wins srt wn (mc : T) delta s mref b k kw c c' : c_cols c = c_cols c' ->
    snd (cat_estimate_a srt wn (Some mc) (Some delta) s mref b k kw c) = snd (cat_estimate_a srt wn (Some mc) (Some delta) s mref b k kw c').
  Proof.
    intros E. unfold cat_estimate_a, with_magnitude. rewrite E.
    destruct (dget (c_cols c') "magnitude"); [|reflexivity].
    assert (G : forall a, snd (let '((o, _), r) := a_calculate srt k wn a (new_aobj, []) in
        match r with Err e => (c, Err e) | Ok _ => match a_value o with Err e => (c, Err e) | Ok v => (set_a c (Some v), Ok o) end end) =
      snd (let '((o, _), r) := a_calculate srt k wn a (new_aobj, []) in
        match r with Err e => (c', Err e) | Ok _ => match a_value o with Err e => (c', Err e) | Ok v => (set_a c' (Some v), Ok o) end end)).
    { intros a. destruct (a_calculate _ _ _ _ _) as [[o ?] [v|e]]; [|reflexivity]. destruct (a_value o); reflexivity. }
    destruct (match k with AClassic => given_a kw | _ => false end); [reflexivity|].
    destruct (kwa_times kw), (dget (check_catalog_cols (a_args k) a_base_args (c_cols c')) "times"), (kwa_dmc kw), (dget (check_catalog_cols (a_args k) a_base_args (c_cols c')) "dmc"), k; try reflexivity; apply G.
  Qed.
  Theorem C138_a_stored_b_unused srt wn mc delta s mref b k kw c b' :
    cat_estimate_a srt wn mc delta s mref b k kw (Catalog_model.set_b c b') =
    (let '(c', r) := cat_estimate_a srt wn mc delta s mref b k kw c in (Catalog_model.set_b c' b', r)).
  Proof.
    unfold cat_estimate_a, with_magnitude. cbn [Catalog_model.set_b c_cols c_mc c_delta].
    destruct (dget (c_cols c) "magnitude"); [|reflexivity].
    destruct mc as [m|], (c_mc c) as [m'|], delta as [d|], (c_delta c) as [d'|]; try reflexivity;
    (destruct (match k with AClassic => given_a kw | _ => false end); [reflexivity|];
    destruct (kwa_times kw), (dget (check_catalog_cols (a_args k) a_base_args (c_cols c)) "times"), (kwa_dmc kw), (dget (check_catalog_cols (a_args k) a_base_args (c_cols c)) "dmc"), k; try reflexivity;
    (destruct (a_calculate _ _ _ _ _) as [[ob ?] [v|e]]; [|reflexivity]; destruct (a_value ob); reflexivity)).
  Qed.
  Theorem C138_a_missing srt wn (mc : option T) delta s mref b k kw c : dget (c_cols c) "magnitude" <> None ->
    explicit_or mc (c_mc c) = None \/ explicit_or delta (c_delta c) = None ->
    cat_estimate_a srt wn mc delta s mref b k kw c = (c, Err ValueError).
  Proof.
    intros Hm H. unfold cat_estimate_a, with_magnitude. destruct (dget (c_cols c) "magnitude"); [|contradiction].
    destruct mc, (c_mc c), delta, (c_delta c), H as [H|H]; cbn [explicit_or] in H; try discriminate H; reflexivity.
  Qed.
  Theorem C138_a_effects srt wn (mc : option T) delta s mref b k kw c :
    match cat_estimate_a srt wn mc delta s mref b k kw c with
    | (c', Ok o) => exists v, a_value o = Ok v /\ c_a c' = Some v /\ same_but_a c c'
    | (c', Err _) => c' = c
    end.
  Proof.
    unfold cat_estimate_a, with_magnitude. destruct (dget (c_cols c) "magnitude") as [mags|]; [|reflexivity].
    assert (G : forall a, match (let '((o, _), r) := a_calculate srt k wn a (new_aobj, []) in
        match r with Err e => (c, Err e) | Ok _ => match a_value o with Err e => (c, Err e) | Ok v => (set_a c (Some v), Ok o) end end) with
      | (c', Ok o) => exists v, a_value o = Ok v /\ c_a c' = Some v /\ same_but_a c c'
      | (c', Err _) => c' = c end).
    { intros a. destruct (a_calculate _ _ _ _ _) as [[o ?] [v|e]]; [|reflexivity]. destruct (a_value o) as [x|e] eqn:Ea; [|reflexivity].
      exists x. split; [exact Ea|]. split; [reflexivity|]. repeat split. }
    destruct mc as [m|], (c_mc c) as [m'|], delta as [d|], (c_delta c) as [d'|]; try reflexivity;
    (destruct (match k with AClassic => given_a kw | _ => false end); [reflexivity|];
    destruct (kwa_times kw), (dget (check_catalog_cols (a_args k) a_base_args (c_cols c)) "times"), (kwa_dmc kw), (dget (check_catalog_cols (a_args k) a_base_args (c_cols c)) "dmc"), k; try reflexivity; apply G).
  Qed.
  Lemma cols_a_positive (cols : dict (list T)) k : k = APositive \/ k = AMorePositive ->
    dget (check_catalog_cols (a_args k) a_base_args cols) "times" = (match dget cols "times" with Some t => Some t | None => dget cols "time" end) /\
    dget (check_catalog_cols (a_args k) a_base_args cols) "dmc" = dget cols "dmc".
  Proof.
    intros Hk. assert (E : check_catalog_cols (a_args k) a_base_args cols =
      fold_left (fun d p => match dget cols (snd p) with Some l => dset d (fst p) l | None => d end)
        [("times", "time"); ("dmc", "dmc"); ("times", "times"); ("dmc", "dmc")] []).
    { destruct Hk as [-> | ->]; reflexivity. }
    rewrite E. cbn [fold_left fst snd].
    destruct (dget cols "time"), (dget cols "dmc"), (dget cols "times"); split; reflexivity.
  Qed.
  (** the positive methods need times: from the arguments or from a column *)
  Theorem C140_a_needs_times srt wn mc delta s mref b k kw c : k = APositive \/ k = AMorePositive -> dget (c_cols c) "magnitude" <> None ->
    kwa_times kw = None -> dget (c_cols c) "times" = None -> dget (c_cols c) "time" = None ->
    cat_estimate_a srt wn (Some mc) (Some delta) s mref b k kw c = (c, Err TypeError).
  Proof.
    intros Hk Hm H1 H2 H3. unfold cat_estimate_a, with_magnitude. destruct (dget (c_cols c) "magnitude"); [|contradiction].
    destruct (cols_a_positive (c_cols c) k Hk) as [Ht _]. rewrite Ht, H1, H2, H3. destruct Hk as [-> | ->]; reflexivity.
  Qed.
  Theorem C140_a_positive srt wn mc delta s mref b k kw c mags ts : k = APositive \/ k = AMorePositive -> dget (c_cols c) "magnitude" = Some mags ->
    times_used (option_map Some (kwa_times kw)) (c_cols c) = Some ts -> kwa_dmc kw <> None \/ dget (c_cols c) "dmc" = None ->
    snd (cat_estimate_a srt wn (Some mc) (Some delta) s mref b k kw c) =
    match a_calculate srt k wn (mkaargs mags mc delta s mref b ts (match kwa_dmc kw with Some d => d | None => None end)) (new_aobj, []) with
    | ((o, _), Ok _) => match a_value o with Ok _ => Ok o | Err e => Err e end
    | (_, Err e) => Err e
    end.
  Proof.
    intros Hk Hm Ht Hd. unfold cat_estimate_a, with_magnitude. rewrite Hm. destruct (cols_a_positive (c_cols c) k Hk) as [H1 H2]. rewrite H1, H2.
    replace (match k with AClassic => given_a kw | _ => false end) with false by (destruct Hk as [-> | ->]; reflexivity).
    replace (match kwa_times kw with Some t => Some t | None => match dget (c_cols c) "times" with Some t => Some t | None => dget (c_cols c) "time" end end) with (Some ts)
      by (rewrite <- Ht; unfold times_used; destruct (kwa_times kw); reflexivity).
    assert (G : forall dmc, snd (let '((o, _), r) := a_calculate srt k wn (mkaargs mags mc delta s mref b ts dmc) (new_aobj, []) in
        match r with Err e => (c, Err e) | Ok _ => match a_value o with Err e => (c, Err e) | Ok v => (set_a c (Some v), Ok o) end end) =
      match a_calculate srt k wn (mkaargs mags mc delta s mref b ts dmc) (new_aobj, []) with
      | ((o, _), Ok _) => match a_value o with Ok _ => Ok o | Err e => Err e end | (_, Err e) => Err e end).
    { intros dmc. destruct (a_calculate _ _ _ _ _) as [[o ?] [v|e]]; [|reflexivity]. destruct (a_value o); reflexivity. }
    destruct Hk as [-> | ->]; (destruct (kwa_dmc kw) as [d|]; [apply G|]; destruct Hd as [Hd|Hd]; [contradiction|]; rewrite Hd; apply G).
  Qed.

  (** the classic method takes neither times nor dmc, not even from the columns *)
  Theorem C140_a_classic srt wn mc delta s mref b c mags : dget (c_cols c) "magnitude" = Some mags ->
    snd (cat_estimate_a srt wn (Some mc) (Some delta) s mref b AClassic (mkkwa None None) c) =
    match a_calculate srt AClassic wn (mkaargs mags mc delta s mref b [] None) (new_aobj, []) with
    | ((o, _), Ok _) => match a_value o with Ok _ => Ok o | Err e => Err e end
    | (_, Err e) => Err e
    end.
  Proof.
    intros Hm. unfold cat_estimate_a, with_magnitude. rewrite Hm. cbn [given_a kwa_times kwa_dmc].
    replace (check_catalog_cols (a_args AClassic) a_base_args (c_cols c)) with (@nil (string * list T)) by reflexivity. cbn [dget].
    destruct (a_calculate _ _ _ _ _) as [[o ?] [v|e]]; [|reflexivity]. destruct (a_value o); reflexivity.
  Qed.
  Theorem C140_a_classic_arguments srt wn mc delta s mref b c kw : dget (c_cols c) "magnitude" <> None -> kwa_times kw <> None \/ kwa_dmc kw <> None ->
    cat_estimate_a srt wn (Some mc) (Some delta) s mref b AClassic kw c = (c, Err TypeError).
  Proof.
    intros Hm H. unfold cat_estimate_a, with_magnitude. destruct (dget (c_cols c) "magnitude"); [|contradiction]. destruct kw as [[t|] [d|]]; cbn in *; try reflexivity. destruct H as [H|H]; contradiction.
  Qed.

  (** ** C139: the estimates of mc *)
  Theorem C139_maxc_effects fmd_bin corr c :
    match cat_mc_maxc fmd_bin corr c with
    | (c', Ok m) => c_mc c' = Some m /\ same_but_mc c c' /\ exists mags, dget (c_cols c) "magnitude" = Some mags /\ estimate_mc_maxc mags fmd_bin corr = Ok m
    | (c', Err _) => c' = c
    end.
  Proof.
    unfold cat_mc_maxc, with_magnitude. destruct (dget (c_cols c) "magnitude") as [mags|]; [|reflexivity].
    destruct (estimate_mc_maxc mags fmd_bin corr) as [m|e] eqn:E; [|reflexivity]. split; [reflexivity|]. split; [repeat split|]. exists mags. auto.
  Qed.
  Theorem C139_stability_effects srt k dmc draws w delta mcs stop range c :
    match cat_mc_b_stability srt k dmc draws w delta mcs stop range c with
    | (c', Ok r) => c_mc c' = st_mc r /\ same_but_mc c c'
    | (c', Err _) => c' = c
    end.
  Proof.
    unfold cat_mc_b_stability, with_magnitude. destruct (dget (c_cols c) "magnitude") as [mags|]; [|reflexivity].
    destruct delta as [d|], (c_delta c) as [d'|]; try reflexivity;
      (destruct (estimate_mc_b_stability _ _ _ _ _ _ _ _ _ _); [split; [reflexivity | repeat split] | reflexivity]).
  Qed.
  Theorem C139_stability_binning srt k dmc draws w delta mcs stop range c mags : dget (c_cols c) "magnitude" = Some mags ->
    snd (cat_mc_b_stability srt k dmc draws w delta mcs stop range c) =
    match explicit_or delta (c_delta c) with Some d => estimate_mc_b_stability srt k dmc draws w mags d mcs stop range | None => Err ValueError end.
  Proof.
    intros Hm. unfold cat_mc_b_stability, with_magnitude. rewrite Hm.
    destruct delta as [d|], (c_delta c) as [d'|]; try reflexivity; cbn [explicit_or];
      destruct (estimate_mc_b_stability _ _ _ _ _ _ _ _ _ _); reflexivity.
  Qed.
  Theorem C139_ks_effects srt k dmc u e w delta mcs p stop b n ds c :
    match cat_mc_ks srt k dmc u e w delta mcs p stop b n ds c with
    | (c', Ok r) => c_mc c' = option_map fst (ks_best r) /\ same_but_mc c c'
    | (c', Err _) => c' = c
    end.
  Proof.
    unfold cat_mc_ks, with_magnitude. destruct (dget (c_cols c) "magnitude") as [mags|]; [|reflexivity].
    destruct delta as [d|], (c_delta c) as [d'|]; try reflexivity;
      (destruct (estimate_mc_ks _ _ _ _ _ _ _ _ _ _ _ _ _ _); [split; [reflexivity | repeat split] | reflexivity]).
  Qed.
  Theorem C139_ks_binning_and_b srt k dmc u e w delta mcs p stop b n ds c mags : dget (c_cols c) "magnitude" = Some mags ->
    snd (cat_mc_ks srt k dmc u e w delta mcs p stop b n ds c) =
    match explicit_or delta (c_delta c) with
    | Some d => estimate_mc_ks srt k dmc u e w mags d mcs p stop (explicit_or b (c_b c)) n ds
    | None => Err ValueError
    end.
  Proof.
    intros Hm. unfold cat_mc_ks, with_magnitude. rewrite Hm.
    assert (E : (match b with None => match c_b c with Some v => Some v | None => None end | Some v => Some v end) = explicit_or b (c_b c)) by (destruct b, (c_b c); reflexivity).
    destruct delta as [d|], (c_delta c) as [d'|]; try reflexivity; cbn [explicit_or]; rewrite E;
      destruct (estimate_mc_ks _ _ _ _ _ _ _ _ _ _ _ _ _ _); reflexivity.
  Qed.
  (** the usual work flow: the mc found is the one estimate_b uses; if none was found, the old
      one is forgotten and estimate_b without mc fails *)
  Theorem C139_workflow_maxc srt wn delta ws k kw fmd_bin corr c c' m : cat_mc_maxc fmd_bin corr c = (c', Ok m) ->
    cat_estimate_b srt wn None delta ws k kw c' = cat_estimate_b srt wn (Some m) delta ws k kw c'.
  Proof.
    intros E. assert (H := C139_maxc_effects fmd_bin corr c). rewrite E in H. destruct H as [H _].
    rewrite C59_b_omitted_is_attribute, H. symmetry. rewrite C59_b_omitted_is_attribute. reflexivity.
  Qed.
  Theorem C139_none_found srt wn delta ws k kw k' dmc u e w delta' mcs p stop b n ds c c' r :
    cat_mc_ks srt k' dmc u e w delta' mcs p stop b n ds c = (c', Ok r) -> ks_best r = None ->
    cat_estimate_b srt wn None delta ws k kw c' = (c', Err ValueError).
  Proof.
    intros E Hr. assert (H := C139_ks_effects srt k' dmc u e w delta' mcs p stop b n ds c). rewrite E in H. destruct H as (H & Hs & _).
    apply C59_b_missing; [| left; rewrite H, Hr; reflexivity].
    rewrite Hs. unfold cat_mc_ks, with_magnitude in E. destruct (dget (c_cols c) "magnitude"); [discriminate | discriminate E].
  Qed.
  (** ** C141: plots through the catalogue leave it unchanged and use the stored values for
      omitted arguments *)
  Theorem C141_plot_cum_fmd mc fb ws b pos c mags : dget (c_cols c) "magnitude" = Some mags ->
    cat_plot_cum_fmd mc fb ws b pos c = (c, plot_cum_fmd mags (explicit_or mc (c_mc c)) (explicit_or fb (c_delta c)) ws (explicit_or b (c_b c)) pos).
  Proof. intros H. unfold cat_plot_cum_fmd, with_magnitude. rewrite H. destruct fb, mc, b; reflexivity. Qed.
  Theorem C141_plot_cum_count srt mcs delta ws norm cols c mags ts : dget (c_cols c) "magnitude" = Some mags -> dget (c_cols c) "time" = Some ts ->
    cat_plot_cum_count srt mcs delta ws norm cols c = (c, plot_cum_count srt ts mags mcs (option_map dec_val (explicit_or delta (c_delta c))) ws norm cols).
  Proof. intros H1 H2. unfold cat_plot_cum_count. rewrite H1, H2. destruct delta; reflexivity. Qed.
  Theorem C141_plot_fmd fb ws pos c mags : dget (c_cols c) "magnitude" = Some mags -> cat_plot_fmd fb ws pos c = (c, plot_fmd mags fb ws pos).
  Proof. intros H. unfold cat_plot_fmd, with_magnitude. rewrite H. reflexivity. Qed.
  Theorem C141_need_columns fb ws pos mc b fo srt mcs delta norm cols c :
    (dget (c_cols c) "magnitude" = None -> cat_plot_fmd fb ws pos c = (c, Err AttributeError) /\ cat_plot_cum_fmd mc fo ws b pos c = (c, Err AttributeError)) /\
    (dget (c_cols c) "magnitude" = None \/ dget (c_cols c) "time" = None -> cat_plot_cum_count srt mcs delta ws norm cols c = (c, Err AttributeError)).
  Proof.
    unfold cat_plot_fmd, cat_plot_cum_fmd, cat_plot_cum_count, with_magnitude. split.
    - intros ->. split; reflexivity.
    - intros [-> | ->]; [destruct (dget (c_cols c) "time"); reflexivity | reflexivity].
  Qed.
End Methods.

(** ** C142: texts that stand for a missing value *)
Theorem C142_texts (v : option string) :
  (clean_text v = None <-> v = None \/ exists s, v = Some s /\ In s [""; "nan"; "NaN"; "none"; "None"; "na"; "Na"; "NA"; "null"; "Null"; "NULL"]) /\
  (forall s, clean_text v = Some s -> v = Some s).
Proof.
  destruct v as [s|]; cbn [clean_text].
  - destruct (mem s missing_texts) eqn:E.
    + split; [|discriminate]. split; [|reflexivity]. intros _. right. exists s. split; [reflexivity|].
      unfold mem in E. rewrite existsb_exists in E. destruct E as (x & Hx & Ex). apply String.eqb_eq in Ex. subst. exact Hx.
    + split; [|auto]. split; [discriminate|]. intros [H|(s' & H & Hi)]; [discriminate|]. injection H as <-.
      exfalso. assert (K : mem s missing_texts = true); [|congruence]. unfold mem. apply existsb_exists. exists s. split; [exact Hi | apply String.eqb_refl].
  - split; [split; auto | discriminate].
Qed.

(** ** Examples *)
Section Examples.
  Open Scope R_scope.
  Definition ex_cat : catalog xr := mkcat [("time", [Fin 1; Fin 2]); ("magnitude", map Fin [1.02; 2.53])] None (Some (mkdec 1 (-1))) (Some (Fin 1)) None.
  Example C58_ex : dget (c_cols ex_cat) "magnitude" = Some (map Fin [1.02; 2.53]) /\ explicit_or (Some (mkdec 1 0)) (c_delta ex_cat) = Some (mkdec 1 0) /\
    epsR <= decR (mkdec 1 0).
  Proof.
    split; [reflexivity|]. split; [reflexivity|].
    replace (decR (mkdec 1 0)) with 1 by (unfold decR; cbn; lra).
    unfold epsR. assert (1 <= IZR (10 ^ 12)) by (apply IZR_le; now compute).
    unfold Rdiv. rewrite Rmult_1_l. rewrite <- Rinv_1. apply Rinv_le_contravar; lra.
  Qed.
  Example C59_ex : explicit_or None (c_mc ex_cat) = None /\ dget (c_cols ex_cat) "magnitude" <> None.
  Proof. split; [reflexivity | discriminate]. Qed.
  Example C140_ex : times_used None (c_cols ex_cat) = Some [Fin 1; Fin 2] /\ dget (c_cols ex_cat) "dmc" = None.
  Proof. split; reflexivity. Qed.
End Examples.
Print Assumptions C58_bin_magnitudes.
Print Assumptions C59_b_effects.
Print Assumptions C140_b_positive.
Print Assumptions C140_b_classic_arguments.
Print Assumptions C140_a_classic.
Print Assumptions C140_a_classic_arguments.
Print Assumptions C139_none_found.
