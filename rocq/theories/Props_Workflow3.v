(** * C224: the accuracy of the b-value above a completeness magnitude by maximum curvature

    C223 and C176 have mc exactly the double of a magnitude of the grid.  The result of maximum
    curvature is the double sum of the fullest bin and the correction, which need not be one
    (C181); the estimate is accurate all the same. *)
From Coq Require Import ZArith QArith List Bool Reals Lia Lra Psatz Permutation Sorted String.
From Flocq Require Import Core.
From Verif Require Import Base Dict.
From Verif Require Import QuakeML_model Spec_QuakeML QuakeML_proofs Props_QuakeML Props_QuakeML2 Spec_Export Spec_Xml Xml_model Xml_proofs Recut_proofs Spec_Spelling Props_Spelling.
From Verif Require Import Base Num XR RList SortLib StateM Dict Binning_model BValue_model BValue_run Spec_BValue BValue_proofs Props_BValue Props_BValue2
  Openquake_model F64 Spec_F64 F64_proofs F64_test F64_select F64_fmd Props_F64 Props_F64b F64_acc F64_est F64_near Props_F64c Props_F64d Mc_model.
From Verif Require Import Catalog_model Table_model Spec_Table Spec_Numeric Props_Table Workflow_model Props_Workflow Props_Workflow2.
Import ListNotations.
Open Scope R_scope.

(** [mc] is at most 10^-14 away from the magnitude with index [kc] *)
Definition near_grid (delta : R) (kc : Z) (mc : R) : Prop := Rabs (mc - IZR kc * delta) <= / 100000000000000.
(** the relative error allowed: 2^-52 times about 220 n / delta for the classic estimator, n for Utsu's *)
Definition error_near (k : kind) (delta : R) (n : nat) : R :=
  match k with Utsu => allowed_error delta n | _ => (INR n * (1 + 220 / delta) + 120 / delta + 10) / 4503599627370496 end.
Definition accurate_near (k : kind) (delta : R) (n : nat) (b e : R) : Prop := Rabs (b - e) <= e * error_near k delta n.
Definition exact_b (k : kind) (delta : R) (kc : Z) (used : list Z) : R :=
  (match k with Utsu => exact_utsu | _ => exact_classic end) delta (mean_excess delta kc used).

Lemma near_about j d kc mc : usual_width j d -> near_grid (widthR j d) kc mc -> about j d kc mc.
Proof. intros W H. pose proof (W_bounds j d W). unfold near_grid in H. unfold about. lra. Qed.
Lemma f_mags_about (L : libm) j d ks kc mc : usual_width j d -> (forall i, In i ks -> below8 j d i) -> moderate j d kc -> about j d kc mc ->
  @f_mags xr (F64 L) (mkargs (mags_at j d ks) (Fin mc) (width j d) None None None) = mags_at j d (filter (Z.leb kc) ks).
Proof.
  intros W B C A. unfold f_mags, keep, thr. cbn [a_mags a_mc a_delta]. rewrite compress_filter. unfold mags_at. clear - W B C A.
  induction ks as [|k ks IH]; [reflexivity|]. cbn [map filter].
  rewrite (select_about L j d kc mc k W C A (below8_ok j d k (B k (or_introl eq_refl)))).
  rewrite IH by (intros; apply B; right; assumption). destruct (kc <=? k)%Z; reflexivity.
Qed.

(** the classic and the Utsu estimator for any mc near a magnitude of the grid *)
Theorem C224_near_mc : forall (L : libm) srt k w j d ks kc mc o,
  sums_in_some_order L -> log_accurate L -> usual_width j d ->
  (forall i, In i ks -> below8 j d i) -> moderate j d kc -> near_grid (widthR j d) kc mc ->
  let delta := widthR j d in
  let used := filter (Z.leb kc) ks in
  INR (List.length used) <= delta * 1000000000 ->
  k = Classic /\ (exists i, In i ks /\ (kc < i)%Z) \/ k = Utsu /\ used <> [] ->
  exists o' b,
    @calculate xr (F64 L) srt k w (mkargs (mags_at j d ks) (Fin mc) (width j d) None None None) o = (o', Ok (Fin b)) /\
    accurate_near k delta (List.length used) b (exact_b k delta kc used).
Proof.
  intros L srt k w j d ks kc mc o HS HL W B C A delta used Hn Hk. pose proof (W_bounds j d W) as WB. fold delta in WB.
  set (a := mkargs (mags_at j d ks) (Fin mc) (width j d) None None None).
  assert (HU : forall i, In i used -> moderate j d i /\ (kc <= i)%Z).
  { intros i Hi. apply filter_In in Hi. destruct Hi as (Hi & Hl). split; [apply below8_ok, B, Hi|apply Z.leb_le, Hl]. }
  pose proof (f_mags_about L j d ks kc mc W B C (near_about j d kc mc W A)) as FM. fold a used in FM.
  assert (Hp : is_pos k = false) by (destruct Hk as [[-> _]|[-> _]]; reflexivity).
  assert (NE : used <> []).
  { destruct Hk as [[_ (i & Hi & Hl)]|[_ H]]; [|exact H]. intros F. assert (In i used) by (apply filter_In; split; [exact Hi|apply Z.leb_le; lia]). rewrite F in H. destruct H. }
  assert (R : exists u b, @run xr (F64 L) srt k a = Ok u /\ u_b u = Fin b /\ accurate_near k delta (List.length used) b (exact_b k delta kc used)).
  { rewrite run_dmc by (intros [X|X]; destruct Hk as [[Y _]|[Y _]]; congruence). rewrite check_binned by (apply (mags_at_ok L j d ks); auto). cbn [a_weights a rbind].
    unfold f_times. rewrite Hp. cbn [rbind]. fold a. rewrite FM.
    unfold mags_at. destruct used as [|u0 ut] eqn:EU; [congruence|]. cbn [map]. rewrite <- EU in *.
    change (Fin (decimal j d u0) :: map (fun k0 : Z => Fin (decimal j d k0)) ut) with (at_index j d (u0 :: ut)). rewrite <- EU.
    unfold accurate_near, exact_b. destruct Hk as [[-> (i & Hi & Hl)]|[-> _]]; cbn [run_est a_mc a_delta a]; change (f_weights _) with (@None (list xr)).
    - destruct (mle_close L j d W HS HL used kc mc HU C A) as (b & Eb & Ab); [exists i; split; [apply filter_In; split; [exact Hi|apply Z.leb_le; lia]|exact Hl]|exact Hn|].
      unfold F64_near.FI8 in Eb. rewrite Eb. cbn [rbind]. eexists _, b. split; [reflexivity|]. split; [reflexivity|exact Ab].
    - assert (Hz : (Z.of_nat (List.length used) <= 2 ^ 40)%Z).
      { apply le_IZR. rewrite <- INR_IZR_INZ. change (2 ^ 40)%Z with 1099511627776%Z. lra. }
      destruct (utsu_close L j d W HS HL used kc mc HU C A NE Hz) as (b & Eb & Ab).
      unfold F64_near.FI8 in Eb. rewrite Eb. cbn [rbind]. eexists _, b. split; [reflexivity|]. split; [reflexivity|exact Ab]. }
  destruct R as (u & b & R & Eb & Ab). pose proof (@calculate_run xr (F64 L) srt k w a o) as CR. rewrite R in CR. destruct CR as (o' & E & _).
  exists o', b. rewrite <- Eb. split; [exact E|exact Ab].
Qed.
Print Assumptions C224_near_mc.

(** the sum of two doubles of the grid is near the grid *)
Lemma maxc_near j d km kcor : usual_width j d -> below8 j d km -> Rabs (IZR kcor * widthR j d) <= 10 ->
  near_grid (widthR j d) (km + kcor) (nearest_double (decimal j d km + decimal j d kcor)).
Proof.
  intros W C C'. pose proof (dec_err j d km) as N. pose proof (dec_err j d kcor) as N'. unfold below8 in C.
  assert (B : Rabs (IZR km * widthR j d) * u <= 8 * u) by (apply Rmult_le_compat_r; [unfold u; lra|lra]).
  assert (B' : Rabs (IZR kcor * widthR j d) * u <= 10 * u) by (apply Rmult_le_compat_r; [unfold u; lra|lra]).
  unfold near_grid. rewrite plus_IZR. apply Rabs_def2 in C. apply Rabs_le_inv in N, N', C'. unfold u, h in *.
  pose proof (rnd_err_le (decimal j d km + decimal j d kcor) 20 ltac:(apply Rabs_le; lra)) as E. unfold u, h in E. apply Rabs_le_inv in E.
  change (rnd (decimal j d km + decimal j d kcor)) with (nearest_double (decimal j d km + decimal j d kcor)) in E. apply Rabs_le. lra.
Qed.

Section Then.
  Context (L : libm) (j : Z) (d : nat) (W : usual_width j d).
  (** maximum curvature, then the b-value above it, on a catalogue whose column magnitude holds
      decimals of the grid and missing values: [km] is the fullest bin, [kcor] the correction *)
  Theorem C224_maxc_then_b srt k w (c : @catalog xr) ms kcor : sums_in_some_order L -> log_accurate L -> k = Classic \/ k = Utsu ->
    dget (c_cols c) "magnitude" = Some (sample (grid j d ms)) -> dget (c_cols c) "weight" = None ->
    present ms <> [] -> (forall i, In i (present ms) -> below8 j d i) ->
    INR (List.length (present ms)) <= widthR j d * 1000000000 -> Rabs (IZR kcor * widthR j d) <= 10 ->
    exists km, fullest km (present ms) /\
    let kc := (km + kcor)%Z in let used := filter (Z.leb kc) (present ms) in
    (match k with Utsu => used <> [] | _ => exists i, In i (present ms) /\ (kc < i)%Z end) ->
    exists mc c1 c2 o b, @cat_mc_maxc xr (F64 L) (width j d) (Fin (decimal j d kcor)) c = (c1, Ok mc) /\
      @cat_estimate_b xr (F64 L) srt w None (Some (width j d)) None k (mkkwb None None) c1 = (c2, Ok o) /\ c_b c2 = Some (Fin b) /\ c_mc c2 = Some mc /\
      accurate_near k (widthR j d) (List.length used) b (exact_b k (widthR j d) kc used).
  Proof.
    intros SO LA Hk M Wt NE B Hn Hc. pose proof (W_bounds j d W) as WB.
    assert (Mc : moderate j d kcor) by (unfold moderate; lra). pose proof (dec_near j d kcor Mc) as Nc. pose proof Hc as Hc'. apply Rabs_le_inv in Nc, Hc'.
    set (rs' := map (option_map (decimal j d)) ms).
    assert (Kn : known rs' = map (decimal j d) (present ms)). { unfold rs'. clear. induction ms as [|[k0|] ms IH]; cbn; congruence. }
    assert (Sm : sample (grid j d ms) = column rs'). { unfold sample, grid, column, rs'. rewrite !map_map. apply map_ext. intros [k0|]; reflexivity. }
    destruct (C180_maxc L j d rs' (decimal j d kcor) SO W) as (Ks & km & Fk & Fu & E).
    - rewrite Kn. destruct (present ms); [congruence|discriminate].
    - rewrite Kn. intros x Hx. apply in_map_iff in Hx as (q & <- & Hq). specialize (B q Hq). unfold below8 in B.
      pose proof (dec_near j d q (below8_ok j d q B)) as N. apply Rabs_le_inv in N. apply Rabs_def2 in B. apply Rabs_le. lra.
    - rewrite Kn, map_length. apply le_IZR. rewrite <- INR_IZR_INZ. change (2 ^ 53)%Z with 9007199254740992%Z. lra.
    - apply Rabs_le. lra.
    - rewrite Kn in Fk. apply near_unique in Fk; [|exact W|intros; apply below8_ok, B; assumption]. subst Ks.
      assert (Bm : below8 j d km) by (apply B, Fu).
      assert (Ms : moderate j d (km + kcor)) by (unfold moderate, below8 in *; rewrite plus_IZR; apply Rabs_def2 in Bm; apply Rabs_le; lra).
      exists km. split; [exact Fu|]. intros kc used Hex. set (mc := nearest_double (decimal j d km + decimal j d kcor)) in *.
      assert (Hu : INR (List.length used) <= widthR j d * 1000000000).
      { eapply Rle_trans; [|exact Hn]. apply le_INR. unfold used. apply filter_le. }
      destruct (C224_near_mc L srt k w j d (present ms) kc mc new_obj SO LA W B Ms (maxc_near j d km kcor W Bm Hc) Hu) as (o1 & b & E1 & A).
      { destruct Hk as [-> | ->]; [left|right]; split; auto. }
      destruct (calc_missing L j d srt k w ms (Fin mc) new_obj (Fin b) Hk NE ltac:(eexists; exact E1)) as (o' & E' & B' & _).
      set (c1 := set_mc c (Some (Fin mc))).
      destruct (estimate_from L srt w k c1 (sample (grid j d ms)) (Fin mc) None (width j d) (Fin b) Hk M Wt (or_intror (conj eq_refl eq_refl))) as (c2 & o2 & G1 & G2 & G3 & G4 & G5); [eauto|].
      exists (Fin mc), c1, c2, o2, b. split; [|split; [exact G1|split; [exact G2|split; [exact G3|exact A]]]].
      unfold cat_mc_maxc, with_magnitude. rewrite M, Sm, E. reflexivity.
  Qed.
  (** the same from the records of a document or of an answer *)
  Theorem C224_records srt k w rs ms kcor K iu ii K' (t : Table_model.table xr) : sums_in_some_order L -> log_accurate L -> k = Classic \/ k = Utsu ->
    @table_from_dict xr (F64 L) K rs iu ii = Ok (K', t) -> Forall2 (tells j d) rs ms -> present ms <> [] -> (forall i, In i (present ms) -> below8 j d i) ->
    INR (List.length (present ms)) <= widthR j d * 1000000000 -> Rabs (IZR kcor * widthR j d) <= 10 ->
    exists km, fullest km (present ms) /\
    let kc := (km + kcor)%Z in let used := filter (Z.leb kc) (present ms) in
    (match k with Utsu => used <> [] | _ => exists i, In i (present ms) /\ (kc < i)%Z end) ->
    exists mc c1 c2 o b, @cat_mc_maxc xr (F64 L) (width j d) (Fin (decimal j d kcor)) (@catalog_of xr (F64 L) t) = (c1, Ok mc) /\
      @cat_estimate_b xr (F64 L) srt w None (Some (width j d)) None k (mkkwb None None) c1 = (c2, Ok o) /\ c_b c2 = Some (Fin b) /\ c_mc c2 = Some mc /\
      accurate_near k (widthR j d) (List.length used) b (exact_b k (widthR j d) kc used).
  Proof.
    intros SO LA Hk H F NE B Hn Hc. apply (C224_maxc_then_b srt k w (@catalog_of xr (F64 L) t) ms kcor); auto.
    - exact (magnitudes_of L j d K rs iu ii K' t ms H F NE B).
    - exact (no_weight L t).
  Qed.
  (** and from the text of a document in any spelling *)
  Theorem C224_document (cut : list sax -> string -> list string) (tf : option string -> res Q) (tm : option string -> res Z) (so : list (option string) -> list (option string))
    files K path h u doc x v ia iu ii iq K' (t : Table_model.table xr) ms srt k w kcor :
    fair_cut solid cut -> heading h -> misc u -> misc v -> doc_ok doc -> (forall ps, doc <> DText ps) -> written solid (plain_of_doc doc) x -> arranges so ->
    files path = Some (h ++ u ++ x ++ v)%string -> @from_quakeml xr (F64 L) cut tf tm so files K path ia iu ii iq = Made K' t ->
    Forall tidy_types (map merge_event (events_of doc)) -> Forall2 (states j d) (map merge_event (events_of doc)) ms ->
    sums_in_some_order L -> log_accurate L -> k = Classic \/ k = Utsu -> present ms <> [] -> (forall i, In i (present ms) -> below8 j d i) ->
    INR (List.length (present ms)) <= widthR j d * 1000000000 -> Rabs (IZR kcor * widthR j d) <= 10 ->
    exists km, fullest km (present ms) /\
    let kc := (km + kcor)%Z in let used := filter (Z.leb kc) (present ms) in
    (match k with Utsu => used <> [] | _ => exists i, In i (present ms) /\ (kc < i)%Z end) ->
    exists mc c1 c2 o b, @cat_mc_maxc xr (F64 L) (width j d) (Fin (decimal j d kcor)) (@catalog_of xr (F64 L) t) = (c1, Ok mc) /\
      @cat_estimate_b xr (F64 L) srt w None (Some (width j d)) None k (mkkwb None None) c1 = (c2, Ok o) /\ c_b c2 = Some (Fin b) /\ c_mc c2 = Some mc /\
      accurate_near k (widthR j d) (List.length used) b (exact_b k (widthR j d) kc used).
  Proof.
    intros Hc Hh Hu Hv Hok Hd HW Hso Hf Hm Ht F SO LA Hk NE B Hn Hcor.
    destruct (made_of_text cut tf tm so L j d files K path h u doc x v ia iu ii iq K' t ms Hc Hh Hu Hv Hok Hd HW Hso Hf Hm Ht F) as (rs & E & F').
    exact (C224_records srt k w rs ms kcor K iu ii K' t SO LA Hk E F' NE B Hn Hcor).
  Qed.
End Then.
Print Assumptions C224_maxc_then_b.
Print Assumptions C224_records.
Print Assumptions C224_document.

(** ** a case that meets the hypotheses: 2.1, 2.4, 2.1, a missing magnitude and 1.9, with the default
    correction 0.2; mc becomes 2.3000000000000003, which is not the double of 2.3 (C181) *)
Example C224_case srt w : exists mc c1 c2 o b,
  @cat_mc_maxc xr (F64 rounding_lib) (width 1 1) (Fin (decimal 1 1 2)) (mkcat [("magnitude"%string, sample (grid 1 1 [Some 21; Some 24; Some 21; None; Some 19]%Z))] None None None None) = (c1, Ok mc) /\
  @cat_estimate_b xr (F64 rounding_lib) srt w None (Some (width 1 1)) None Classic (mkkwb None None) c1 = (c2, Ok o) /\ c_b c2 = Some (Fin b) /\
  accurate_near Classic (/ 10) 1 b (exact_classic (/ 10) (1 / 10)).
Proof.
  destruct C176_example as [SO LA]. assert (W11 : widthR 1 1 = / 10) by (unfold widthR; cbn; lra).
  destruct (C224_maxc_then_b rounding_lib 1 1 ex_width srt Classic w (mkcat [("magnitude"%string, sample (grid 1 1 [Some 21; Some 24; Some 21; None; Some 19]%Z))] None None None None) [Some 21; Some 24; Some 21; None; Some 19]%Z 2) as (km & Fu & H).
  - exact SO.
  - exact LA.
  - auto.
  - reflexivity.
  - reflexivity.
  - discriminate.
  - intros i Hi. unfold below8. rewrite W11. cbn in Hi. destruct Hi as [<-|[<-|[<-|[<-|[]]]]]; rewrite Rabs_pos_eq; lra.
  - rewrite W11. cbn. lra.
  - rewrite W11. rewrite Rabs_pos_eq; lra.
  - assert (km = 21%Z).
    { destruct Fu as (I & M). pose proof (proj1 (M 21%Z)) as M1. cbn in I. destruct I as [<-|[<-|[<-|[<-|[]]]]]; try reflexivity; exfalso; vm_compute in M1; lia. }
    subst km. cbv zeta in H. destruct H as (mc & c1 & c2 & o & b & H1 & H2 & H3 & _ & H4).
    { exists 24%Z. split; [cbn; tauto|lia]. }
    exists mc, c1, c2, o, b. split; [exact H1|]. split; [exact H2|]. split; [exact H3|].
    rewrite W11 in H4. unfold exact_b in H4. change (filter (Z.leb (21 + 2)) (present [Some 21; Some 24; Some 21; None; Some 19]%Z)) with [24%Z] in H4.
    change (21 + 2)%Z with 23%Z in H4. cbn [List.length] in H4. replace (1 / 10) with (mean_excess (/ 10) 23 [24%Z]); [exact H4|]. unfold mean_excess. cbn. lra.
Qed.
