(** * How often the refuted claims fail: C76, C78, C92, C118 and C124 for all inputs *)
From Coq Require Import Reals Lra List Permutation Lia Bool ZArith Sorted.
From Verif Require Import Base Num XR RList SortLib Binning_model Spec_Binning Binning_proofs BinTest_proofs
  BValue_model BValue_run Spec_BValue BValue_real Likelihood BValue_proofs Props_BValue Props_BValue2.
From Verif Require Import Decluster_model Decluster_proofs Props_Windows.
From Verif Require Import Fmd_proofs BSig_model Plots_model Spec_Plots Props_Plots Props_FmdPlot.
From Verif Require Import Utils_model Spec_Utils Props_Coordinates.
Import ListNotations.
Open Scope R_scope.

(** ** C76: every call with weights of the wrong length leaves the new magnitudes next to
    the old b-value *)
Theorem C76_every_bad_weights_refuted : forall T (N : Num T) srt k w (a : @args T) o ws,
  k = Classic \/ k = Utsu -> binned_ok a -> a_weights a = Some ws -> length ws <> length (a_mags a) ->
  let o' := fst (calculate srt k w a o) in
  snd (calculate srt k w a o) = Err IndexError /\
  o_mags o' = Some (a_mags a) /\ o_mc o' = Some (a_mc a) /\ o_delta o' = Some (a_delta a) /\ b_value o' = b_value o.
Proof.
  intros T N srt k w a o ws Hk Hb Hw Hl.
  assert (Hc : check a = Err IndexError).
  { rewrite check_binned by exact Hb. rewrite Hw. destruct (Nat.eqb_spec (length (a_mags a)) (length ws)); [congruence|reflexivity]. }
  assert (E : calculate srt k w a o = base_calculate srt k w a o) by (destruct Hk as [-> | ->]; reflexivity).
  cbv zeta. rewrite E. unfold base_calculate.
  rewrite (bind_ok _ _ o (set_mags (a_mags a) o) tt eq_refl).
  rewrite (bind_ok _ _ _ (set_mc (a_mc a) (set_mags (a_mags a) o)) tt eq_refl).
  rewrite (bind_ok _ _ _ (set_delta (a_delta a) (set_mc (a_mc a) (set_mags (a_mags a) o))) tt eq_refl).
  rewrite (bind_ok _ _ _ (set_weights (a_weights a) (set_delta (a_delta a) (set_mc (a_mc a) (set_mags (a_mags a) o)))) tt eq_refl).
  set (oo := set_weights _ _).
  destruct (sanity_run w a oo eq_refl eq_refl) as (o3 & HS & Q).
  rewrite Hc in HS. rewrite (bind_err _ _ _ _ _ HS). cbn [fst snd]. unfold eqw in Q.
  unfold b_value. repeat (destruct Q as [? Q]). repeat match goal with H : _ = _ oo |- _ => rewrite H; clear H end.
  repeat split; reflexivity.
Qed.
Print Assumptions C76_every_bad_weights_refuted.

(** ** C78: a common weight changes the uncertainty whenever it is not 1, and how *)
Lemma const_wmean c ms : c <> 0 -> ms <> [] -> wmean (map (fun m => (m, c)) ms) = mean ms /\ wsum (map (fun m => (m, c)) ms) = c * INR (length ms) /\
  Rsum (map (fun p => snd p * Rsqr (fst p - mean ms)) (map (fun m => (m, c)) ms)) = c * ssq ms.
Proof.
  intros Hc Hne. assert (Hn : INR (length ms) <> 0) by (apply not_0_INR; destruct ms; [congruence|discriminate]).
  assert (W : wsum (map (fun m => (m, c)) ms) = c * INR (length ms)).
  { unfold wsum. rewrite map_map. cbn [snd]. rewrite Rsum_map_const. ring. }
  assert (S : forall l, Rsum (map (fun m => c * m) l) = c * Rsum l).
  { induction l as [|x l IH]; [unfold Rsum; cbn; ring|]. cbn [map]. rewrite !Rsum_cons, IH. ring. }
  split; [|split; [exact W|]].
  - unfold wmean, mean. rewrite W, map_map. cbn [fst snd]. rewrite S. field. auto.
  - unfold ssq. rewrite map_map. cbn [fst snd]. rewrite <- (map_map (fun m => Rsqr (m - mean ms)) (fun v => c * v)). apply S.
Qed.
Theorem C78_every_common_weight_refuted : forall ms b c, (2 <= length ms)%nat -> b <> 0 -> 0 < c -> 1 < c * INR (length ms) ->
  (exists m m', In m ms /\ In m' ms /\ m <> m') ->
  exists s s',
  shi_bolt_confidence (map Fin ms) (Fin b) None PB = Ok (Fin s) /\
  shi_bolt_confidence (map Fin ms) (Fin b) (Some (map (fun _ => Fin c) ms)) PB = Ok (Fin s') /\
  (1 < c -> s' < s) /\ (c < 1 -> s < s').
Proof.
  intros ms b c Hl Hb Hc Hcn (m & m' & Hm & Hm' & Hd).
  destruct (C24_formula ms b Hl) as [E _]. cbv zeta in E.
  assert (Hne : ms <> []) by (destruct ms; [cbn in Hl; lia|discriminate]).
  destruct (const_wmean c ms ltac:(lra) Hne) as (M & W & Q).
  pose proof (C24_formula_weighted (map (fun m => (m, c)) ms) b) as F. cbv zeta in F. rewrite !map_map in F. cbn [fst snd] in F.
  change (map (fun x : R => Fin x) ms) with (map Fin ms) in F.
  rewrite W, M in F. rewrite map_map in Q. cbn [fst snd] in Q. rewrite Q in F.
  assert (H2 : 2 <= INR (length ms)) by (apply (le_INR 2) in Hl; simpl (INR 2) in Hl; lra).
  set (n := INR (length ms)) in *.
  assert (E2 : shi_bolt_confidence (map Fin ms) (Fin b) (Some (map (fun _ => Fin c) ms)) PB = Ok (Fin (ln 10 * b ^ 2 * sqrt (ssq ms / (n * (c * n - 1)))))).
  { rewrite F; [|intros p Hp; apply in_map_iff in Hp; destruct Hp as (x & <- & _); cbn; lra|exact Hcn]. do 4 f_equal. field. repeat split; lra. }
  eexists _, _. split; [exact E|]. split; [exact E2|].
  assert (P : 0 < ssq ms).
  { destruct (Rle_lt_or_eq_dec _ _ (ssq_nonneg ms)) as [P|P]; [exact P|]. exfalso. apply Hd.
    destruct (C24_nonneg_zero_iff_all_equal ms b Hl) as (s & Es & _ & Hs). specialize (Hs Hb). apply (proj1 Hs); [|exact Hm|exact Hm'].
    rewrite E in Es. injection Es as <-. rewrite <- P. unfold Rdiv. rewrite Rmult_0_l, sqrt_0. ring. }
  pose proof ln10_pos as L10. assert (B2 : 0 < ln 10 * b ^ 2) by (apply Rmult_lt_0_compat; [exact L10|nra]).
  assert (C : forall u v, 0 < u -> u < v -> sqrt (ssq ms / v) < sqrt (ssq ms / u)).
  { intros u v Hu Huv. assert (ssq ms / v < ssq ms / u) by (unfold Rdiv; apply Rmult_lt_compat_l; [exact P|apply Rinv_lt_contravar; nra]).
    apply sqrt_lt_1; try assumption; apply Rlt_le, Rdiv_lt_0_compat; lra. }
  split; intros Hc1; (apply Rmult_lt_compat_l; [exact B2|]); apply C.
  - apply Rmult_lt_0_compat; lra.
  - apply Rmult_lt_compat_l; [lra|]. assert (n < c * n) by (rewrite <- (Rmult_1_l n) at 1; apply Rmult_lt_compat_r; lra). lra.
  - apply Rmult_lt_0_compat; lra.
  - apply Rmult_lt_compat_l; [lra|]. assert (c * n < n) by (rewrite <- (Rmult_1_l n) at 2; apply Rmult_lt_compat_r; lra). lra.
Qed.
Print Assumptions C78_every_common_weight_refuted.

(** ** C92: exactly which pairs of magnitudes have their Gardner-Knopoff times in the wrong order *)
Theorem C92_exactly_refuted : forall m m', m < m' -> exists t t',
  time_window GardnerKnopoff (Fin m) = Fin t /\ time_window GardnerKnopoff (Fin m') = Fin t' /\
  (t' < t <-> m < 6.5 <= m' /\ 0.032 * m' + 2.7389 < 0.5409 * m - 0.547).
Proof.
  intros m m' H. exists (tw GardnerKnopoff m), (tw GardnerKnopoff m'). rewrite !time_window_real by exact I.
  split; [reflexivity|]. split; [reflexivity|]. unfold tw.
  assert (P : forall x y, Rpower 10 x < Rpower 10 y <-> x < y).
  { intros x y. split; [|apply pow10_lt]. intros Hx. destruct (Rtotal_order x y) as [?|[->|G]]; [assumption|lra|].
    pose proof (pow10_lt _ _ G). lra. }
  destruct (rlt m 6.5) eqn:A, (rlt m' 6.5) eqn:B; rewrite P; try apply rlt_true in A; try apply rlt_true in B; try apply rlt_false in A; try apply rlt_false in B; lra.
Qed.
Print Assumptions C92_exactly_refuted.

(** ** C118: the two box functions do not compose for any polygon of positive extent that
    does not happen to satisfy [miny = maxx] *)
Theorem C118_every_polygon_refuted : forall ring a c d e, bounding_rect ring (a, c, d, e) -> ring <> [] -> c <> d ->
  polygon_to_bounding_box (map finxy ring) = Some (Fin a, Fin c, Fin d, Fin e) /\
  polygon_to_bounding_box (bounding_box_to_polygon (Fin a) (Fin c) (Fin d) (Fin e)) <> Some (Fin a, Fin c, Fin d, Fin e).
Proof.
  intros ring a c d e H Hne Hcd. destruct (C64_bounding_box ring Hne) as (a' & c' & d' & e' & E & Hb).
  pose proof (bounding_rect_unique _ _ _ Hb H) as Eq. injection Eq as -> -> -> ->. split; [exact E|].
  set (r := [(c, d); (c, e); (a, e); (a, d); (c, d)]).
  change (bounding_box_to_polygon (Fin a) (Fin c) (Fin d) (Fin e)) with (map finxy r).
  destruct (C64_bounding_box r ltac:(discriminate)) as (a1 & c1 & d1 & e1 & E1 & Hb1). rewrite E1. intros F. injection F as -> -> -> ->.
  destruct Hb1 as [Hin Hmin].
  specialize (Hmin (Rmin a c) (Rmin d e) (Rmax a c) (Rmax d e)).
  assert (Hr : Forall (fun p => Rmin a c <= fst p <= Rmax a c /\ Rmin d e <= snd p <= Rmax d e) r).
  { pose proof (Rmin_l a c). pose proof (Rmin_r a c). pose proof (Rmin_l d e). pose proof (Rmin_r d e).
    pose proof (Rmax_l a c). pose proof (Rmax_r a c). pose proof (Rmax_l d e). pose proof (Rmax_r d e).
    unfold r. repeat (apply Forall_cons; [cbn; lra|]). apply Forall_nil. }
  specialize (Hmin Hr). rewrite Forall_forall in Hin. unfold r in Hin.
  pose proof (Hin (c, d) ltac:(cbn; tauto)) as H1. pose proof (Hin (a, e) ltac:(cbn; tauto)) as H2. cbn in H1, H2. cbn in Hmin.
  destruct H as [_ Hm0].
  unfold Rmin, Rmax in Hmin. destruct (Rle_dec a c), (Rle_dec d e); lra.
Qed.
Print Assumptions C118_every_polygon_refuted.

(** ** C124: the line of every weighted plot starts at the number of complete magnitudes,
    above its first point, which is at their weight *)
Theorem C124_every_weighted_line_refuted : forall mags mc delta ws b pos, no_inf mags -> fins mags <> [] ->
  decR (bin_or_zero delta) = 0 \/ epsR <= decR (bin_or_zero delta) -> pos <> OtherPos -> length ws = length (fins mags) ->
  let d := decR (bin_or_zero delta) in
  exists ys, rounded d (fins mags) ys /\
  ((forall y, In y ys -> y < mc - d / 2) \/
   exists pts x0 n W rest,
     plot_cum_fmd mags (Some (Fin mc)) delta (Some (map Fin ws)) (Some (Fin b)) pos
       = Ok (mkcp pts (Some ((Fin x0, Fin n) :: rest))) /\
     In (Fin x0, Fin W) pts /\
     n = number_of (fun y => rle (mc - d / 2) y) ys /\ W = weight_of (fun y => rle (mc - d / 2) y) ys ws).
Proof.
  intros mags mc delta ws b pos H1 H2 H3 H4 HL d.
  destruct (cum_plot_R mags (Some mc) delta (Some ws) (Some b) pos H1 H2 H3 H4 HL) as (bins & ys & A & B & C & _ & _ & E).
  exists ys. split; [exact A|]. cbv zeta in E. cbn [option_map rbind] in E. fold d in E. set (h := shift d pos) in *.
  set (pts := map (fun c => (Fin (c - h), Fin (weight_of (fun y => rle c y) ys ws))) bins) in *.
  pose proof (sorted_filter Rlt (fun c => rle (mc - d / 2) c) bins B) as SF.
  assert (FI : forall c, In c (filter (fun c => rle (mc - d / 2) c) bins) <-> In c bins /\ mc - d / 2 <= c).
  { intros c. rewrite filter_In, rle_true. reflexivity. }
  destruct (filter (fun c => rle (mc - d / 2) c) bins) as [|c0 cs] eqn:F.
  - left. intros y Hy. destruct (Rlt_le_dec y (mc - d / 2)) as [L|L]; [exact L|].
    destruct (proj2 (FI y) (conj (C y Hy) L)).
  - right. rewrite map_cons, pymin_map_head in E.
    2:{ rewrite <- (map_cons (fun c => c - h)). apply sorted_map_shift. exact SF. }
    cbn [rbind] in E. cbn [map gutenberg_richter zip] in E.
    exists pts, (c0 - h), (number_of (fun y => rle (mc - d / 2) y) ys), (weight_of (fun y => rle (mc - d / 2) y) ys ws).
    eexists. split; [|split; [|split; reflexivity]].
    + rewrite E. do 3 f_equal. unfold gutenberg_richter. cbn [map zip]. f_equal.
      f_equal. rewrite x_sub, x_opp, x_mul. cbn [npow10 XR xpow10]. rewrite x_mul. f_equal.
      replace (- b * (c0 - h - (c0 - h))) with 0 by ring. rewrite Rpower_O by lra. ring.
    + unfold pts. apply in_map_iff. exists c0. split; [|apply FI; left; reflexivity]. do 2 f_equal.
      assert (Ext : forall y, In y ys -> rle c0 y = rle (mc - d / 2) y).
      { intros y Hy. unfold rle. destruct (Rle_dec c0 y) as [L|L], (Rle_dec (mc - d / 2) y) as [M|M]; auto; exfalso.
        * pose proof (proj1 (FI c0) (or_introl eq_refl)). lra.
        * apply L. destruct (proj2 (FI y) (conj (C y Hy) M)) as [->|Hc]; [lra|]. inversion SF as [|? ? _ FF]; subst.
          rewrite Forall_forall in FF. left. apply FF. exact Hc. }
      unfold weight_of. f_equal. f_equal. clear - Ext. revert ws. induction ys as [|y ys IH]; intros ws; [reflexivity|].
      destruct ws as [|v ws]; [reflexivity|]. cbn [zip filter fst]. rewrite (Ext y (or_introl eq_refl)), IH; [reflexivity|].
      intros z Hz. apply Ext. right. exact Hz.
Qed.
Print Assumptions C124_every_weighted_line_refuted.

(** the cases meet the hypotheses *)
Example General_example :
  (exists s s', shi_bolt_confidence (map Fin [1; 2; 4]) (Fin 1) None PB = Ok (Fin s) /\
    shi_bolt_confidence (map Fin [1; 2; 4]) (Fin 1) (Some (map (fun _ => Fin 2) [1; 2; 4])) PB = Ok (Fin s') /\ (1 < 2 -> s' < s) /\ (2 < 1 -> s < s')) /\
  bounding_rect [(0, 10); (1, 12)] (0, 10, 1, 12).
Proof.
  split.
  - apply C78_every_common_weight_refuted; [cbn; lia|lra|lra|simpl; lra|]. exists 1, 2. cbn. repeat split; try tauto. lra.
  - split; [repeat (apply Forall_cons; [cbn; lra|]); apply Forall_nil|]. intros a c d e H. rewrite Forall_forall in H.
    pose proof (H (0, 10) ltac:(cbn; tauto)) as A. pose proof (H (1, 12) ltac:(cbn; tauto)) as B. cbn in A, B. lra.
Qed.
