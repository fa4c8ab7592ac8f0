(** * C126, C127, C131, C132: magnitudes in time, map extents, colours *)
From Coq Require Import Reals Lra Lia ZArith List Bool Sorted Permutation.
From Verif Require Import Base Num XR RList StateM Binning_model Spec_Binning BValue_model BSig_model Plots_model Spec_Plots Props_Plots Props_Coordinates Props_TimePlots.
Import ListNotations.
Open Scope R_scope.

(** ** C126: the completeness line *)
Lemma amax_max (t0 : R) ts : exists z, amax (Fin t0) (map Fin ts) = Fin z /\ is_max z (t0 :: ts).
Proof.
  destruct (amax_fin t0 ts) as (z & E & A & B & C). exists z. split; [exact E|]. split; [exact C|].
  intros v [<-|Hv]; [exact A|]. rewrite Forall_forall in B. apply B. exact Hv.
Qed.
Lemma step_zip_last ds mcs t m0 : length ds = length mcs -> ds <> [] -> (forall x, In x ds -> x <= t) ->
  step_at (zip ds mcs) t = Some (List.last mcs m0).
Proof.
  revert mcs. induction ds as [|x ds IH]; intros [|m mcs] L Hne H; cbn in L; try lia; [congruence|]. cbn [zip step_at].
  destruct ds as [|x' ds].
  - destruct mcs; [|discriminate]. cbn [zip step_at]. pose proof (H x (or_introl eq_refl)). destruct (Rle_dec x t); [reflexivity|lra].
  - destruct mcs as [|m' mcs]; [discriminate|]. rewrite IH; [reflexivity|cbn in *; lia|discriminate|]. intros y Hy. apply H. right. exact Hy.
Qed.
Lemma last_map_fin (mcs : list R) m : mcs <> [] -> List.last (map Fin mcs) (Fin m) = Fin (List.last mcs m).
Proof. intros H. apply last_map. exact H. Qed.
(** change times given as dates, or as years (then 1 January is meant) *)
Definition dates_of (jan1 : Z -> R) (ct : change_times xr) (ds : list R) : Prop :=
  match ct with
  | Dates l => l = map Fin ds
  | Years ys => ds = map jan1 ys /\ forall y, In y ys -> (1 <= y <= 9999)%Z
  end.
Theorem C126_completeness_line : forall jan1 times mags ct ds mcs smallest largest p sizes,
  times <> [] -> length mags = length times ->
  dot_size mags smallest largest p = Ok sizes ->
  dates_of jan1 ct ds -> ds <> [] -> length mcs = length ds ->
  (exists z, is_max z times /\ forall x, In x ds -> x <= z) ->
  exists st qs z,
    plot_mags_in_time (fun y => Fin (jan1 y)) (map Fin times) mags smallest largest p (Some ct, Some (map Fin mcs))
      = (st, Ok (mkmt (zip (zip (map Fin times) mags) sizes) (Some (map fins2 qs)))) /\
    (forall t, step_at qs t = step_at (zip ds mcs) t) /\
    is_max z times /\ fst (List.last qs (0, 0)) = z.
Proof.
  intros jan1 times mags ct ds mcs smallest largest p sizes Ht Lm Es Hc Hne Lc (z & Hz & Hall).
  destruct times as [|t0 ts]; [congruence|]. destruct (amax_max t0 ts) as (z' & Ez & Hz').
  assert (z' = z) as -> by (destruct Hz as [I1 I2], Hz' as [J1 J2]; pose proof (I2 z' J1); pose proof (J2 z I1); lra).
  destruct mcs as [|m0 mcs]; [destruct ds; [congruence|discriminate]|].
  set (lst := List.last (m0 :: mcs) m0).
  set (qs := zip ds (m0 :: mcs) ++ [(z, lst)]).
  assert (Q : forall t, step_at qs t = step_at (zip ds (m0 :: mcs)) t).
  { intros t. unfold qs. rewrite step_app. destruct (Rle_dec z t) as [L|L]; [|reflexivity]. symmetry. apply step_zip_last; auto.
    intros x Hx. pose proof (Hall x Hx). lra. }
  assert (QL : fst (List.last qs (0, 0)) = z) by (unfold qs; rewrite last_last; reflexivity).
  assert (G : zip (map Fin ds ++ [Fin z]) (map Fin (m0 :: mcs) ++ [List.last (map Fin (m0 :: mcs)) (Fin m0)]) = map fins2 qs).
  { rewrite last_map_fin by discriminate. fold lst. change [Fin z] with (map Fin [z]). change [Fin lst] with (map Fin [lst]).
    rewrite <- !map_app, zip_fins2, zip_app by (symmetry; exact Lc). reflexivity. }
  assert (GL : (length (map Fin ds ++ [Fin z]) =? length (map Fin (m0 :: mcs) ++ [List.last (map Fin (m0 :: mcs)) (Fin m0)]))%nat = true).
  { apply Nat.eqb_eq. rewrite !app_length, !map_length, Lc. reflexivity. }
  unfold plot_mags_in_time. rewrite Es.
  assert (LE : (length (map Fin (t0 :: ts)) =? length mags)%nat = true) by (apply Nat.eqb_eq; rewrite map_length; auto).
  rewrite LE. cbn [negb]. set (dots := zip (zip (map Fin (t0 :: ts)) mags) sizes). clearbody dots. change (map Fin (t0 :: ts)) with (Fin t0 :: map Fin ts).
  destruct ct as [ys|l]; cbn [dates_of] in Hc.
  - destruct Hc as [-> Hy]. destruct ys as [|y0 ys]; [cbn in Hne; congruence|]. cbv beta iota.
    assert (FB : forallb (fun y => ((1 <=? y) && (y <=? 9999))%Z) (y0 :: ys) = true).
    { apply forallb_forall. intros y Hin. apply Hy in Hin. apply andb_true_iff. rewrite !Z.leb_le. lia. }
    rewrite FB, Ez. change (map Fin (m0 :: mcs)) with (Fin m0 :: map Fin mcs) at 1. cbv beta iota.
    rewrite <- (map_map jan1 Fin). rewrite map_length in *.
    change (Fin m0 :: map Fin mcs) with (map Fin (m0 :: mcs)). rewrite GL, G.
    eexists _, qs, z. split; [reflexivity|]. auto.
  - subst l. destruct ds as [|x0 ds]; [congruence|]. change (map Fin (x0 :: ds)) with (Fin x0 :: map Fin ds) at 1. cbv beta iota.
    change (map Fin (m0 :: mcs)) with (Fin m0 :: map Fin mcs) at 1. cbv beta iota. rewrite Ez.
    change (Fin m0 :: map Fin mcs) with (map Fin (m0 :: mcs)). change (Fin x0 :: map Fin ds) with (map Fin (x0 :: ds)).
    rewrite GL, G. eexists _, qs, z. split; [reflexivity|]. auto.
Qed.
Print Assumptions C126_completeness_line.
(** without completeness changes only the dots are drawn and nothing is changed *)
Theorem C126_no_line : forall T (N : Num T) (jan1 : Z -> T) times mags smallest largest p ct mcs sizes,
  ct = None \/ mcs = None -> length times = length mags -> dot_size mags smallest largest p = Ok sizes ->
  plot_mags_in_time jan1 times mags smallest largest p (ct, mcs) = ((ct, mcs), Ok (mkmt (zip (zip times mags) sizes) None)).
Proof.
  intros T N jan1 times mags smallest largest p ct mcs sizes H L E. unfold plot_mags_in_time. rewrite E, L, Nat.eqb_refl. cbn [negb].
  destruct H as [->| ->]; [reflexivity|]. destruct ct; reflexivity.
Qed.
Print Assumptions C126_no_line.

(** ** C127: the caller's lists *)
(** each successful call makes the caller's list of completeness magnitudes longer, and the list of dates too *)
Theorem C127_arguments_changed_refuted : forall T (N : Num T) jan1 (times mags : list T) smallest largest p ct mcs st r,
  plot_mags_in_time jan1 times mags smallest largest p (Some ct, Some mcs) = (st, Ok r) ->
  exists ct' mcs', st = (Some ct', Some mcs') /\ length mcs' = S (length mcs) /\
    match ct, ct' with
    | Years l, Years l' => l' = l
    | Dates l, Dates l' => length l' = S (length l)
    | _, _ => False
    end.
Proof.
  intros T N jan1 times mags smallest largest p ct mcs st r. unfold plot_mags_in_time.
  destruct (dot_size mags smallest largest p) as [sizes|]; [|discriminate].
  destruct (negb _); [discriminate|]. destruct times as [|t0 ts]; [destruct ct as [[|]|[|]]; discriminate|].
  destruct ct as [[|y ys]|[|d ds]]; try discriminate.
  - destruct (forallb _ _); [|discriminate]. destruct mcs as [|m0 mcs]; [discriminate|]. destruct (_ =? _)%nat; [|discriminate].
    intros E. injection E as <- _. eexists _, _. split; [reflexivity|]. split; [cbn [length]; rewrite ?app_length; cbn [length]; lia|reflexivity].
  - destruct mcs as [|m0 mcs]; [discriminate|]. destruct (_ =? _)%nat; [|discriminate].
    intros E. injection E as <- _. eexists _, _. split; [reflexivity|]. split; cbn [length app]; rewrite ?app_length; cbn [length]; lia.
Qed.
Print Assumptions C127_arguments_changed_refuted.
(** with years, the same call with the same list objects fails the second time *)
Theorem C127_second_call_fails_refuted : forall T (N : Num T) jan1 (times mags : list T) smallest largest p ys mcs st r,
  plot_mags_in_time jan1 times mags smallest largest p (Some (Years ys), Some mcs) = (st, Ok r) ->
  snd (plot_mags_in_time jan1 times mags smallest largest p st) = Err ValueError.
Proof.
  intros T N jan1 times mags smallest largest p ys mcs st r. unfold plot_mags_in_time.
  destruct (dot_size mags smallest largest p) as [sizes|]; [|discriminate].
  destruct (negb _) eqn:EN; [discriminate|]. destruct times as [|t0 ts]; [destruct ys; discriminate|].
  destruct ys as [|y ys]; [discriminate|]. destruct (forallb _ _) eqn:EF; [|discriminate].
  destruct mcs as [|m0 mcs]; [discriminate|]. destruct (length (map jan1 (y :: ys) ++ [amax t0 ts]) =? length ((m0 :: mcs) ++ [List.last (m0 :: mcs) m0]))%nat eqn:EL; [|discriminate].
  intros E. injection E as <- _.
  apply Nat.eqb_eq in EL.
  match goal with |- ?g => match g with context [(?a =? ?b)%nat] => destruct (Nat.eqb_spec a b) as [F|F]; [exfalso|] end end.
  2:{ destruct (forallb _ (y :: ys)); reflexivity. }
  rewrite !app_length, !map_length in *. cbn [length] in *. rewrite !app_length in *. cbn [length] in *. lia.
Qed.
Print Assumptions C127_second_call_fails_refuted.
Example C127_example : exists st r,
  plot_mags_in_time (fun y => Fin (IZR y)) [Fin 2001; Fin 2010] [Fin 1; Fin 3] (Fin 10) (Fin 200) (Fin 2) (Some (Years [2000%Z; 2005%Z]), Some [Fin 3; Fin 2]) = (st, Ok r).
Proof.
  destruct (dot_size_fin [1; 3] 10 200 2) as (lo & hi & _ & _ & _ & _ & E); [lra|discriminate|exists 1, 3; repeat split; [left; reflexivity|right; left; reflexivity|lra]|].
  destruct (C126_completeness_line IZR [2001; 2010] [Fin 1; Fin 3] (Years [2000%Z; 2005%Z]) [2000; 2005] [3; 2] (Fin 10) (Fin 200) (Fin 2) (map Fin (map (size_of lo hi 10 (largest_used 10 200) 2) [1; 3]))) as (st & qs & z & H & _).
  - discriminate.
  - reflexivity.
  - exact E.
  - cbn. split; [reflexivity|]. intros y [<-|[<-|[]]]; lia.
  - discriminate.
  - reflexivity.
  - exists 2010. split; [split; [right; left; reflexivity|]|]; cbn; intros v [<-|[<-|[]]]; lra.
  - exists st. eexists. exact H.
Qed.

(** ** C131: the map extent *)
Notation box := (R * R * R * R)%type.
Definition finb (b : box) : xr * xr * xr * xr := let '(w, e, s, n) := b in (Fin w, Fin e, Fin s, Fin n).
Definition inside (b : box) (p : R * R) : Prop := let '(w, e, s, n) := b in w <= fst p <= e /\ s <= snd p <= n.
(** [b] is the bounding box of the points, widened by 5 % of its extension on every side *)
Definition padded_box (b : box) (lons lats : list R) : Prop :=
  exists w e s n, is_min w lons /\ is_max e lons /\ is_min s lats /\ is_max n lats /\
    b = (w - (e - w) * 0.05, e + (e - w) * 0.05, s - (n - s) * 0.05, n + (n - s) * 0.05).
Lemma data_extent_R lons lats : lons <> [] -> lats <> [] ->
  exists b, data_extent (map Fin lons) (map Fin lats) = Ok (finb b) /\ padded_box b lons lats.
Proof.
  intros H1 H2. destruct lons as [|x xs]; [congruence|]. destruct lats as [|y ys]; [congruence|]. unfold data_extent.
  destruct (first_last x xs) as (w & e & -> & -> & W & E). destruct (first_last y ys) as (s & n & -> & -> & S & Nn). cbn [rbind].
  unfold lit. rewrite !x_sub, !x_abs, x_ofZ, x_ofZ, x_div by (apply not_0_IZR; discriminate). rewrite !x_mul, !x_sub, !x_add.
  exists (w - (e - w) * 0.05, e + (e - w) * 0.05, s - (n - s) * 0.05, n + (n - s) * 0.05). split.
  - destruct W as [W1 W2], E as [E1 E2], S as [S1 S2], Nn as [N1 N2]. pose proof (W2 e E1). pose proof (S2 n N1).
    rewrite !Rabs_pos_eq by lra. cbn [finb]. change (IZR (10 ^ Z.of_nat 2)) with 100. do 5 f_equal; lra.
  - exists w, e, s, n. auto.
Qed.
Lemma padded_inside b lons lats p : padded_box b lons lats -> In (fst p) lons -> In (snd p) lats -> inside b p.
Proof.
  intros (w & e & s & n & [W1 W2] & [E1 E2] & [S1 S2] & [N1 N2] & ->) Hx Hy.
  pose proof (W2 _ Hx). pose proof (E2 _ Hx). pose proof (S2 _ Hy). pose proof (N2 _ Hy). cbn. lra.
Qed.
Definition smallest_box (b c d : box) : Prop :=
  let '(w, e, s, n) := b in let '(w1, e1, s1, n1) := c in let '(w2, e2, s2, n2) := d in
  w = Rmin w1 w2 /\ e = Rmax e1 e2 /\ s = Rmin s1 s2 /\ n = Rmax n1 n2.
Lemma min_py_R a b : min_py (Fin a) (Fin b) = Fin (Rmin a b).
Proof. unfold min_py. rewrite x_ltb. unfold rlt, Rmin. destruct (Rlt_dec b a), (Rle_dec a b); try reflexivity; apply f_equal; lra. Qed.
Lemma max_py_R a b : max_py (Fin a) (Fin b) = Fin (Rmax a b).
Proof. unfold max_py. rewrite x_ltb. unfold rlt, Rmax. destruct (Rlt_dec a b), (Rle_dec a b); try reflexivity; apply f_equal; lra. Qed.
Lemma union_inside b c d q : smallest_box b c d -> inside c q \/ inside d q -> inside b q.
Proof.
  destruct b as [[[w e] s] n], c as [[[w1 e1] s1] n1], d as [[[w2 e2] s2] n2]. cbn. intros (-> & -> & -> & ->) H.
  pose proof (Rmin_l w1 w2). pose proof (Rmin_r w1 w2). pose proof (Rmin_l s1 s2). pose proof (Rmin_r s1 s2).
  pose proof (Rmax_l e1 e2). pose proof (Rmax_r e1 e2). pose proof (Rmax_l n1 n2). pose proof (Rmax_r n1 n2). lra.
Qed.
(** new axes show the padded bounding box; the extent of given axes grows just as much as needed to
    contain it *)
Theorem C131_extent : forall current lons lats mags smallest largest p r,
  plot_in_space (option_map finb current) (map Fin lons) (map Fin lats) mags smallest largest p = Ok r ->
  exists b d, fst r = finb b /\ padded_box d lons lats /\ (forall q, In q (zip lons lats) -> inside b q) /\
    match current with
    | None => b = d
    | Some c => smallest_box b c d /\ forall q, inside c q -> inside b q
    end.
Proof.
  intros current lons lats mags smallest largest p r. unfold plot_in_space.
  destruct lons as [|x xs]; [unfold data_extent; destruct lats as [|y ys]; cbn [map pymax rbind]; [discriminate|]; cbn [pymin rbind pymax]; discriminate|].
  destruct lats as [|y ys]; [discriminate|].
  destruct (data_extent_R (x :: xs) (y :: ys)) as (d & -> & Hd); [discriminate|discriminate|]. cbn [rbind].
  destruct (dot_size mags smallest largest p); [|discriminate]. cbn [rbind]. destruct (_ || _); [discriminate|].
  intros E. injection E as <-. cbn [fst].
  assert (I : forall q, In q (zip (x :: xs) (y :: ys)) -> inside d q).
  { intros q Hq. apply (padded_inside d _ _ q Hd); [apply zip_in_l in Hq|apply zip_in_r in Hq]; exact Hq. }
  destruct current as [c|]; cbn [option_map].
  - destruct c as [[[w1 e1] s1] n1] eqn:Ec. destruct d as [[[w2 e2] s2] n2] eqn:Ed. rewrite <- Ec, <- Ed in *.
    exists (Rmin w1 w2, Rmax e1 e2, Rmin s1 s2, Rmax n1 n2), d.
    assert (S : smallest_box (Rmin w1 w2, Rmax e1 e2, Rmin s1 s2, Rmax n1 n2) c d) by (rewrite Ec, Ed; cbn; auto).
    split; [|split; [exact Hd|split; [|split; [exact S|]]]].
    + rewrite Ec, Ed. cbn [set_extent finb]. rewrite !min_py_R, !max_py_R. reflexivity.
    + intros q Hq. apply (union_inside _ c d q S). right. apply I. exact Hq.
    + intros q Hq. apply (union_inside _ c d q S). left. exact Hq.
  - exists d, d. auto.
Qed.
Print Assumptions C131_extent.
(** it succeeds for events with at least two different magnitudes *)
Theorem C131_succeeds : forall current lons lats mags smallest largest p, 0 < p -> lons <> [] ->
  length lats = length lons -> length mags = length lons -> (exists m m', In m mags /\ In m' mags /\ m <> m') ->
  exists ext dots, plot_in_space (option_map finb current) (map Fin lons) (map Fin lats) (map Fin mags) (Fin smallest) (Fin largest) (Fin p) = Ok (ext, dots) /\
    length dots = length lons.
Proof.
  intros current lons lats mags smallest largest p Hp H1 H2 H3 H4. unfold plot_in_space.
  destruct (data_extent_R lons lats H1) as (d & -> & _); [destruct lats, lons; try congruence; discriminate|]. cbn [rbind].
  destruct (dot_size_fin mags smallest largest p Hp) as (lo & hi & _ & _ & _ & _ & ->); [destruct mags, lons; try congruence; discriminate|exact H4|].
  cbn [rbind]. rewrite !map_length, H2, H3, Nat.eqb_refl. cbn [negb orb]. eexists _, _. split; [reflexivity|].
  rewrite !zip_length, !map_length. lia.
Qed.
Print Assumptions C131_succeeds.
(** the country's box is padded in the same way *)
Theorem C131_country : forall w s e n, w <= e -> s <= n ->
  country_extent (Fin w, Fin s, Fin e, Fin n)
  = finb (w - (e - w) * 0.05, e + (e - w) * 0.05, s - (n - s) * 0.05, n + (n - s) * 0.05).
Proof.
  intros w s e n H1 H2. unfold country_extent, lit. rewrite !x_sub, !x_abs, x_ofZ, x_ofZ, x_div by (apply not_0_IZR; discriminate).
  rewrite !x_mul, !x_sub, !x_add. rewrite (Rabs_left1 (w - e)), (Rabs_left1 (s - n)) by lra. cbn [finb].
  change (IZR (10 ^ Z.of_nat 2)) with 100. do 4 f_equal; lra.
Qed.
Print Assumptions C131_country.

(** ** C132: lighter and darker colours *)
Theorem C132_lighter : forall factor c, 0 <= factor < 1 -> 0 <= c <= 1 ->
  exists c', adjust_channel (Fin factor) (Fin c) = Fin c' /\ c <= c' <= 1 /\ 1 - c' = factor * (1 - c).
Proof.
  intros factor c Hf Hc. unfold adjust_channel. change (@one xr XR) with (Fin 1). rewrite x_ltb, (proj2 (rlt_true factor 1)) by lra.
  rewrite !x_sub, x_mul, x_add. eexists. split; [reflexivity|]. split; [nra|ring].
Qed.
Print Assumptions C132_lighter.
Theorem C132_darker : forall factor c, 1 <= factor -> 0 <= c <= 1 ->
  exists c', adjust_channel (Fin factor) (Fin c) = Fin c' /\ 0 <= c' <= c /\ c' * factor = c.
Proof.
  intros factor c Hf Hc. unfold adjust_channel. change (@one xr XR) with (Fin 1). rewrite x_ltb, (proj2 (rlt_false factor 1)) by lra.
  rewrite x_div by lra. eexists. split; [reflexivity|]. assert (E : c / factor * factor = c) by (field; lra). split; [|exact E].
  assert (0 <= c / factor) by (apply Rmult_le_pos; [lra|]; left; apply Rinv_0_lt_compat; lra). split; [exact H|]. nra.
Qed.
Print Assumptions C132_darker.
Example C131_example : exists ext dots, plot_in_space None [Fin 7; Fin 8] [Fin 46; Fin 47] [Fin 1; Fin 2] (Fin 10) (Fin 200) (Fin 2) = Ok (ext, dots).
Proof.
  destruct (C131_succeeds None [7; 8] [46; 47] [1; 2] 10 200 2) as (ext & dots & E & _); [lra|discriminate|reflexivity|reflexivity| |exists ext, dots; exact E].
  exists 1, 2. repeat split; [left; reflexivity|right; left; reflexivity|lra].
Qed.
