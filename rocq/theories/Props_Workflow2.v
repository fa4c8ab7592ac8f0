(** * C223: from the text of a QuakeML document, or from a download, to the b-value *)
From Coq Require Import ZArith QArith List Bool String Ascii Reals Lia Lra Permutation.
From Flocq Require Import Core.
From Verif Require Import Base Num XR F64 Spec_F64 Dict QuakeML_model Spec_QuakeML QuakeML_proofs Props_QuakeML Props_QuakeML2 Spec_Export Spec_Xml Xml_model Xml_proofs Recut_proofs Props_Xml Props_Xml2 Spec_Spelling Props_Spelling.
From Verif Require Import Client_model Spec_Client Props_Client ClientText_model Spec_Download Props_Download Download_model Table_model Spec_Table Spec_Numeric Props_Table Props_Table2.
From Verif Require Import Export_model Export_proofs Props_Export Props_Export2 ExportText_model Props_ExportText Spec_Times.
From Verif Require Import StateM BValue_model Spec_BValue F64_proofs F64_acc F64_est F64_fmd F64_test Props_F64d Props_F64 Props_F64b Props_F64c F64_select Catalog_model Workflow_model Props_Workflow.
Import ListNotations.
Open Scope string_scope.

(** ** what an event says about its preferred magnitude *)
(** the magnitude with the preferred id of the event; the first one if there are several *)
Definition has_preferred_id (e : Spec_QuakeML.event) (f : list (string * string)) : Prop := exists id, preferred_id e = Some id /\ field f "magnitudepublicID" = Some id.
Definition preferred_magnitude (e : Spec_QuakeML.event) (f : list (string * string)) : Prop := first_with (has_preferred_id e) (magnitude_fields strip e) f.
Definition states (j : Z) (d : nat) (e : Spec_QuakeML.event) (m : option Z) : Prop :=
  match m with
  | Some k => exists f s n, preferred_magnitude e f /\ field f "magnitudemagvalue" = Some s /\ spells s n /\ Spec_Numeric.value n = (IZR k * widthR j d)%R /\
                (digit_count n <= 17)%nat /\ (mantissa n <= 2 ^ 53)%Z /\ (-22 <= exponent n <= 22)%Z
  | None => (forall f, In f (magnitude_fields strip e) -> ~ has_preferred_id e f) \/
            exists f, preferred_magnitude e f /\ (field f "magnitudemagvalue" = None \/
              exists s, field f "magnitudemagvalue" = Some s /\ (forall n, ~ spells s n) /\ forall w, In w infinities -> ~ spelled_like s w)
  end.

Lemma id_shows e m f : shows m f -> id_of m (preferred_id e) <-> has_preferred_id e f.
Proof.
  intros H. unfold id_of, has_preferred_id. rewrite (H "magnitudepublicID"). destruct (field f "magnitudepublicID") as [s|]; cbn [option_map].
  - split; [intros [= <-]; exists s; auto|intros (i & A & B); rewrite A; congruence].
  - split; [discriminate|intros (i & _ & B); discriminate].
Qed.
Lemma first_shows {A B} (R : A -> B -> Prop) (P : A -> Prop) (Q : B -> Prop) l m y : Forall2 R l m -> (forall a b, R a b -> P a <-> Q b) -> first_with Q m y -> exists x, first_with P l x /\ R x y.
Proof.
  intros F E (m1 & m2 & -> & Qy & No). revert l F. induction m1 as [|b m1 IH]; intros l F; inversion F as [|a ? l' ? Hab F' E1 E2]; subst.
  - exists a. split; [|exact Hab]. exists [], l'. split; [reflexivity|]. split; [apply (E _ _ Hab), Qy|intros ? []].
  - destruct (IH ltac:(intros; apply No; right; assumption) _ F') as (x & (l1 & l2 & -> & Px & N) & Rx). exists x. split; [|exact Rx]. exists (a :: l1), l2. split; [reflexivity|]. split; [exact Px|].
    intros z [<-|Hz]; [|apply N; exact Hz]. intros K. apply (No b (or_introl eq_refl)), (E _ _ Hab), K.
Qed.

Section Text.
  Variables (cut : list sax -> string -> list string) (tf : option string -> res Q) (tm : option string -> res Z) (so : list (option string) -> list (option string)).
  Lemma record_tells j d ia iq e r m : arranges so -> doc_ok (DEvent e) -> tidy_types e -> QuakeML_proofs.record tf tm so ia iq e = Ok r -> states j d e m -> tells j d r m.
  Proof.
    intros Hso Hok Ht Hr Hm. destruct (C55_preferred tf tm so ia iq e r Hso ltac:(exact Hok) Ht) as (mags & F & HP).
    { rewrite parse_docs by exact Hok. cbn [events_of map_res]. rewrite Hr. reflexivity. }
    specialize (HP "magnitudemagvalue" "magnitude" ltac:(cbn; tauto)). destruct HP as [HP1 HP2].
    assert (G : forall f, preferred_magnitude e f -> dget r "magnitude" = option_map Some (field f "magnitudemagvalue")).
    { intros f Hf. destruct (first_shows _ (fun x => id_of x (preferred_id e)) _ _ _ _ F (id_shows e) Hf) as (p & P1 & P2). rewrite (HP1 p P1). apply P2. }
    destruct m as [k|]; cbn [states tells] in *.
    - destruct Hm as (f & s & n & Pf & Fs & Hm). exists s, n. split; [|exact Hm]. unfold says. rewrite (G f Pf), Fs. reflexivity.
    - destruct Hm as [No|(f & Pf & [Fn|(s & Fs & S1 & S2)])].
      + left. apply HP2. intros m Im K. destruct (shows_in _ _ _ F Im) as (f & If & Sf). apply (No f If), (id_shows e m f Sf), K.
      + left. left. rewrite (G f Pf), Fn. reflexivity.
      + right. exists s. split; [unfold says; rewrite (G f Pf), Fs; reflexivity|auto].
  Qed.
  Lemma records_tell j d ia iq evs rs ms : arranges so -> Forall (fun e => doc_ok (DEvent e)) evs -> Forall tidy_types evs -> map_res (QuakeML_proofs.record tf tm so ia iq) evs = Ok rs ->
    Forall2 (states j d) evs ms -> Forall2 (tells j d) rs ms.
  Proof.
    intros Hso Hok Ht. revert rs ms. induction evs as [|e evs IH]; intros rs ms H F; inversion F as [|? m ? ms' Hm F' E1 E2]; subst.
    - injection H as <-. constructor.
    - cbn [map_res] in H. destruct (QuakeML_proofs.record tf tm so ia iq e) as [r|] eqn:Er; cbn [rbind] in H; [|discriminate]. destruct (map_res _ evs) as [rs'|]; cbn [rbind] in H; [|discriminate]. injection H as <-.
      inversion_clear Hok as [|? ? K1 K2]. inversion_clear Ht as [|? ? T1 T2]. constructor; [apply (record_tells j d ia iq e); assumption|apply IH; auto].
  Qed.

  Context (L : libm) (j : Z) (d : nat) (W : usual_width j d).
  (** the table made of a document *)
  Lemma made_of_text files K path h u doc x v ia iu ii iq K' (t : Table_model.table xr) ms :
    fair_cut solid cut -> heading h -> misc u -> misc v -> doc_ok doc -> (forall ps, doc <> DText ps) -> written solid (plain_of_doc doc) x -> arranges so ->
    files path = Some (h ++ u ++ x ++ v) -> @from_quakeml xr (F64 L) cut tf tm so files K path ia iu ii iq = Made K' t ->
    Forall tidy_types (map merge_event (events_of doc)) -> Forall2 (states j d) (map merge_event (events_of doc)) ms ->
    exists rs, @table_from_dict xr (F64 L) K rs iu ii = Ok (K', t) /\ Forall2 (tells j d) rs ms.
  Proof.
    intros Hc Hh Hu Hv Hok Hd HW Hso Hf Hm Ht F. unfold from_quakeml in Hm. rewrite Hf in Hm.
    rewrite (proj1 (C216_any_spelling cut tf tm so ia iq h u doc x v Hc Hh Hu Hv Hok Hd HW)) in Hm.
    rewrite parse_docs in Hm by (apply merge_doc_ok; exact Hok). rewrite events_merge in Hm.
    destruct (map_res _ (map merge_event (events_of doc))) as [rs|] eqn:M; [|discriminate]. cbn [answer_of make] in Hm.
    destruct (@table_from_dict xr (F64 L) K rs iu ii) as [[k1 t1]|] eqn:E; [|discriminate]. injection Hm as -> ->.
    exists rs. split; [exact E|]. apply (records_tell j d ia iq (map merge_event (events_of doc))); auto.
    apply Forall_map. eapply Forall_impl; [|apply event_doc_ok; exact Hok]. intros e He. apply (merge_doc_ok (DEvent e)). exact He.
  Qed.

  Open Scope R_scope.
  (** a document on disk, in any spelling; the b-value of its catalogue is, up to the rounding of double
      precision, the estimate of the exact magnitudes at or above the completeness magnitude *)
  Theorem C223_document files K path h u doc x v ia iu ii iq K' (t : Table_model.table xr) ms srt k w kc :
    fair_cut solid cut -> heading h -> misc u -> misc v -> doc_ok doc -> (forall ps, doc <> DText ps) -> written solid (plain_of_doc doc) x -> arranges so ->
    files path = Some (h ++ u ++ x ++ v)%string -> @from_quakeml xr (F64 L) cut tf tm so files K path ia iu ii iq = Made K' t ->
    Forall tidy_types (map merge_event (events_of doc)) -> Forall2 (states j d) (map merge_event (events_of doc)) ms ->
    sums_in_some_order L -> log_accurate L -> (forall i, In i (present ms) -> below8 j d i) -> moderate j d kc ->
    let delta := widthR j d in let used := filter (Z.leb kc) (present ms) in (Z.of_nat (List.length used) <= 2 ^ 40)%Z ->
    k = Classic /\ (exists i, In i (present ms) /\ (kc < i)%Z) \/ k = Utsu /\ used <> [] ->
    exists c' o' b, @cat_estimate_b xr (F64 L) srt w (Some (Fin (decimal j d kc))) (Some (width j d)) None k (mkkwb None None) (@catalog_of xr (F64 L) t) = (c', Ok o') /\ c_b c' = Some (Fin b) /\
      accurate delta (List.length used) b ((match k with Utsu => exact_utsu | _ => exact_classic end) delta (mean_excess delta kc used)).
  Proof.
    intros Hc Hh Hu Hv Hok Hd HW Hso Hf Hm Ht F SO LA B C delta used Hn Hk.
    destruct (made_of_text files K path h u doc x v ia iu ii iq K' t ms Hc Hh Hu Hv Hok Hd HW Hso Hf Hm Ht F) as (rs & E & F').
    exact (C223_records L j d W srt k w rs ms kc K iu ii K' t SO LA E F' B C Hn Hk).
  Qed.
  (** the same with the completeness magnitude by maximum curvature *)
  Theorem C223_document_maxc files K path h u doc x v ia iu ii iq K' (t : Table_model.table xr) ms srt k w kcor :
    fair_cut solid cut -> heading h -> misc u -> misc v -> doc_ok doc -> (forall ps, doc <> DText ps) -> written solid (plain_of_doc doc) x -> arranges so ->
    files path = Some (h ++ u ++ x ++ v)%string -> @from_quakeml xr (F64 L) cut tf tm so files K path ia iu ii iq = Made K' t ->
    Forall tidy_types (map merge_event (events_of doc)) -> Forall2 (states j d) (map merge_event (events_of doc)) ms ->
    sums_in_some_order L -> k = Classic \/ k = Utsu -> present ms <> [] -> (forall i, In i (present ms) -> below8 j d i) ->
    (Z.of_nat (List.length (present ms)) <= 2 ^ 53)%Z -> Rabs (IZR kcor * widthR j d) <= 10 ->
    exists km mc c1 c2 o b idx used, fullest km (present ms) /\
      @cat_mc_maxc xr (F64 L) (width j d) (Fin (decimal j d kcor)) (@catalog_of xr (F64 L) t) = (c1, Ok mc) /\ c_mc c1 = Some mc /\
      @cat_estimate_b xr (F64 L) srt w None (Some (width j d)) None k (mkkwb None None) c1 = (c2, Ok o) /\ c_b c2 = Some b /\ c_mc c2 = Some mc /\
      o_mags o = Some (mags_at j d used) /\ picks (fun i => (km + kcor <= i)%Z) (present ms) idx used.
  Proof.
    intros Hc Hh Hu Hv Hok Hd HW Hso Hf Hm Ht F SO Hk NE B Hn Hcor.
    destruct (made_of_text files K path h u doc x v ia iu ii iq K' t ms Hc Hh Hu Hv Hok Hd HW Hso Hf Hm Ht F) as (rs & E & F').
    exact (C223_maxc_then_b L j d W srt k w rs ms kcor K iu ii K' t SO Hk E F' NE B Hn Hcor).
  Qed.
End Text.

Section Down.
  Context {D : Type} (strftime : D -> string).
  Variables (cut : list sax -> string -> list string) (tf : option string -> res Q) (tm : option string -> res Z) (so : list (option string) -> list (option string)).
  Context (L : libm) (j : Z) (d : nat) (W : usual_width j d).
  Open Scope R_scope.
  #[local] Instance FD : Num xr := F64 L.
  (** the catalogue downloaded from a service with the events [all] *)
  Theorem C223_download server all (a : Client_model.args xr D) bs iu ii iq ms srt k w kc : fair_cut solid cut -> serves server all -> (1 <= bs)%Z -> arranges so ->
    dget (build_params strftime a) "limit" = None -> dget (build_params strftime a) "offset" = None ->
    let evs := all (without (build_params strftime a)) in
    Forall tidy_types (map merge_event evs) -> Forall2 (states j d) (map merge_event evs) ms ->
    sums_in_some_order L -> log_accurate L -> (forall i, In i (present ms) -> below8 j d i) -> moderate j d kc ->
    let delta := widthR j d in let used := filter (Z.leb kc) (present ms) in (Z.of_nat (List.length used) <= 2 ^ 40)%Z ->
    k = Classic /\ (exists i, In i (present ms) /\ (kc < i)%Z) \/ k = Utsu /\ used <> [] ->
    exists made, (exists fuel0, forall fuel, (fuel0 < fuel)%nat ->
        (exists log, @get_events xr (F64 L) D strftime server cut tf tm so fuel iu ii iq (with_batch a (Some bs)) = Some (mkdated made (a_start a) (a_end a), log)) /\
        (exists log, @get_events xr (F64 L) D strftime server cut tf tm so fuel iu ii iq (with_batch a None) = Some (mkdated made (a_start a) (a_end a), log))) /\
      forall K' (t : Table_model.table xr), made = Made K' t ->
      exists c' o' b, @cat_estimate_b xr (F64 L) srt w (Some (Fin (decimal j d kc))) (Some (width j d)) None k (mkkwb None None) (@catalog_of xr (F64 L) t) = (c', Ok o') /\ c_b c' = Some (Fin b) /\
        accurate delta (List.length used) b ((match k with Utsu => exact_utsu | _ => exact_classic end) delta (mean_excess delta kc used)).
  Proof.
    intros Hc Hs Hbs Hso Hl Ho evs Ht F SO LA B C delta used Hn Hk.
    destruct (@C215_download xr (F64 L) D strftime cut tf tm so server all a bs iu ii iq Hc Hs Hbs Hl Ho) as [G _].
    eexists. split; [exact G|]. clear G. intros K' t Hm.
    assert (Hok : Forall (fun e => doc_ok (DEvent e)) evs). { pose proof (page_ok server all Hs (build_params strftime a)) as P. unfold page_of in P. rewrite Hl, Ho in P. exact P. }
    fold evs in Hm. rewrite event_records_map in Hm by exact Hok.
    change (all (without (build_params strftime a))) with evs in Hm. destruct (map_res (fun e => QuakeML_proofs.record tf tm so true iq (merge_event e)) evs) as [rs|] eqn:M; [|discriminate]. cbn [answer_of make] in Hm.
    change FD with (F64 L) in Hm. destruct (@table_from_dict xr (F64 L) IsCatalog rs iu ii) as [[k1 t1]|] eqn:E; [|discriminate]. injection Hm as -> ->.
    assert (F' : Forall2 (tells j d) rs ms).
    { apply (records_tell tf tm so j d true iq (map merge_event evs)); auto.
      - apply Forall_map. eapply Forall_impl; [|exact Hok]. intros e He. apply (merge_doc_ok (DEvent e)). exact He.
      - rewrite <- M. clear. induction evs as [|e evs' IH]; [reflexivity|]. cbn [map map_res]. rewrite IH. reflexivity. }
    exact (C223_records L j d W srt k w rs ms kc IsCatalog iu ii K' t SO LA E F' B C Hn Hk).
  Qed.
End Down.

(** ** a catalogue written as QuakeML and read again *)
(** what a row of the exported catalogue holds in the column magnitude *)
Definition holds (j : Z) (d : nat) (row : dict val) (m : option Z) : Prop :=
  match m with
  | Some k => exists s n, dget row "magnitude" = Some (Val s) /\ spells s n /\ Spec_Numeric.value n = (IZR k * widthR j d)%R /\
                (digit_count n <= 17)%nat /\ (mantissa n <= 2 ^ 53)%Z /\ (-22 <= exponent n <= 22)%Z
  | None => dget row "magnitude" = Some VNan
  end.
Section Back.
  Variables (cut : list sax -> string -> list string) (tf : option string -> res Q) (tm : option string -> res Z) (so : list (option string) -> list (option string)).
  Context (L : libm) (j : Z) (d : nat) (W : usual_width j d).
  #[local] Instance FB : Num xr := F64 L.
  Open Scope R_scope.
  Lemma column_is (t : Table_model.table xr) (n : nat) ms : Forall (fun cl => List.length (snd cl) = n) (t_cols t) -> List.length ms = n -> ms <> [] -> (forall k, In k (present ms) -> below8 j d k) ->
    (forall i m, nth_error ms i = Some m -> match m with Some k => number_at t "magnitude" i (IZR k * widthR j d) | None => at_ (t_cols t) "magnitude" i (EFloat NaN) end) ->
    dget (c_cols (@catalog_of xr (F64 L) t)) "magnitude" = Some (Spec_F64.sample (grid j d ms)).
  Proof.
    intros FL Ln NE B H. cbn [catalog_of c_cols]. rewrite (dget_frame L) by reflexivity.
    assert (Hl : exists l, dget (t_cols t) "magnitude" = Some l).
    { destruct ms as [|m ms']; [contradiction|]. specialize (H 0%nat m eq_refl). destruct m as [k|]; [destruct H as [(l & A & _)|(z & (l & A & _) & _)]|destruct H as (l & A & _)]; eauto. }
    destruct Hl as (l & Hl). rewrite Hl. cbn [option_map]. f_equal. rewrite Forall_forall in FL. pose proof (FL _ (dget_in _ _ _ Hl)) as Ll. cbn [snd] in Ll.
    symmetry. unfold Spec_F64.sample, grid. rewrite map_map. apply nth_ext_map; [rewrite map_length; congruence|]. intros i m Hm. rewrite nth_error_map. specialize (H i m Hm).
    destruct m as [k|]; cbn [option_map].
    - destruct H as [(l' & L1 & L2)|(z & (l' & L1 & L2) & Z1)]; rewrite Hl in L1; injection L1 as <-; rewrite L2; cbn [option_map number_of]; [reflexivity|].
      assert (Ik : In k (present ms)) by (apply present_in; exact (nth_error_In _ _ Hm)). specialize (B k Ik). unfold below8 in B. rewrite <- Z1 in B.
      assert (Bz : (Z.abs z <= 2 ^ 53)%Z). { apply le_IZR. rewrite abs_IZR. apply Rle_trans with 8; [left; exact B|]. change (2 ^ 53)%Z with 9007199254740992%Z. lra. }
      pose proof (f_ofZ L z Bz) as Q. change (@ofZ xr (FW L) z = Fin (IZR z)) in Q. rewrite Q, <- Z1. unfold nearest_double. do 2 f_equal. symmetry. apply (rnd_int z). exact Bz.
    - destruct H as (l' & L1 & L2). rewrite Hl in L1. injection L1 as <-. rewrite L2. reflexivity.
  Qed.
  Theorem C223_round_trip int_text agencyID author columns fresh rows K iu ii iq srt k w kc : fair_cut solid cut -> arranges so -> K <> PlainFrame ->
    good_table columns rows -> (forall s, presentable (int_text s)) -> (forall i c, presentable (fresh i c)) ->
    writable_table columns rows -> writable agencyID -> writable author -> (forall s, writable (int_text s)) -> (forall i c, writable (fresh i c)) ->
    (forall row, In row rows -> row_complete row -> exists x, time_known row x /\ Spec_Times.st_valid x) ->
    (exists row, In row rows /\ row_complete row /\ Spec_Export.known (dget row "magnitude")) ->
    sums_in_some_order L -> log_accurate L -> moderate j d kc ->
    exists text rows' K' (t : Table_model.table xr), to_quakeml_text int_text agencyID author columns fresh rows = Ok text /\ picked row_complete rows rows' /\
      (forall files path, files path = Some text -> @from_quakeml xr (F64 L) cut tf tm so files K path true iu ii iq = Made K' t) /\
      forall ms, Forall2 (holds j d) rows' ms -> (forall i, In i (present ms) -> below8 j d i) ->
      let delta := widthR j d in let used := filter (Z.leb kc) (present ms) in (Z.of_nat (List.length used) <= 2 ^ 40)%Z ->
      k = Classic /\ (exists i, In i (present ms) /\ (kc < i)%Z) \/ k = Utsu /\ used <> [] ->
      exists c' o' b, @cat_estimate_b xr (F64 L) srt w (Some (Fin (decimal j d kc))) (Some (width j d)) None k (mkkwb None None) (@catalog_of xr (F64 L) t) = (c', Ok o') /\ c_b c' = Some (Fin b) /\
        accurate delta (List.length used) b ((match k with Utsu => exact_utsu | _ => exact_classic end) delta (mean_excess delta kc used)).
  Proof.
    intros Hcut Hso HK Hg Hi Hf Ww Wag Wau Wi Wf Htime Hmag SO LA C.
    destruct (C213_round_trip L cut tf tm so int_text agencyID author columns fresh rows K iu ii iq Hcut Hso HK Hg Hi Hf Ww Wag Wau Wi Wf Htime Hmag) as (text & rows' & K' & t & E & P & _ & F & _ & R & FL & G).
    exists text, rows', K', t. split; [exact E|]. split; [exact P|]. split; [exact F|]. intros ms Hm B delta used Hn Hk.
    assert (NE : present ms <> []). { intros X. unfold used in Hk. rewrite X in Hk. destruct Hk as [[_ (i & [] & _)]|[_ Hk]]. apply Hk. reflexivity. }
    assert (Kn : exists row', In row' rows' /\ Spec_Export.known (dget row' "magnitude")).
    { destruct Hmag as (row & R1 & R2 & R3). exists row. split; [exact (picked_keeps _ _ _ _ P R1 R2)|exact R3]. }
    assert (M : dget (c_cols (@catalog_of xr (F64 L) t)) "magnitude" = Some (Spec_F64.sample (grid j d ms))).
    { apply (column_is t (List.length rows')); [exact FL|clear -Hm; induction Hm; cbn; congruence|intros ->; apply NE; reflexivity|exact B|].
      intros i m Im. destruct (forall2_nth_r _ _ _ _ _ Hm Im) as (row & Hr & H). destruct (G i row Hr) as (G1 & G2 & _).
      destruct m as [k0|]; cbn [holds] in H.
      - destruct H as (s & n & Hs & Sp & V & D & Mn & X). rewrite <- V. apply (G1 "magnitude" s n); auto. cbn; tauto.
      - destruct Kn as (row' & K1 & K2). apply (G2 "magnitude" row'); auto. cbn; tauto. }
    destruct (C223_missing_magnitudes L j d W srt k w ms kc new_obj SO LA B C Hn Hk) as (o1 & b & E1 & Eb & A).
    destruct (estimate_from L srt w k (@catalog_of xr (F64 L) t) _ (Fin (decimal j d kc)) (Some (Fin (decimal j d kc))) (width j d) (Fin b) ltac:(destruct Hk as [[-> _]|[-> _]]; auto) M (no_weight L t) (or_introl eq_refl)) as (c' & o' & G1 & G2 & _); [eauto|].
    exists c', o', b. auto.
  Qed.
End Back.
Print Assumptions C223_document.
Print Assumptions C223_document_maxc.
Print Assumptions C223_download.
Print Assumptions C223_round_trip.
