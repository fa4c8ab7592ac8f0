(** * Cases that meet the hypotheses of C207-C215 *)
From Coq Require Import ZArith QArith List Bool String Ascii Lia Lra Reals Permutation.
From Verif Require Import Base Num XR F64 Dict Utils_model QuakeML_model Spec_QuakeML Spec_Export Spec_Xml Xml_model Xml_proofs Recut_proofs.
From Verif Require Import Export_model Export_proofs Props_Export Props_Export2 ExportText_model ExportText_proofs Props_ExportText Tests_Xml.
From Verif Require Import Client_model ClientText_model Spec_Download Props_Download Tests_Download Download_model.
From Verif Require Import Catalog_model Spec_Catalog Table_model Spec_Table Spec_F64 Spec_Numeric Spec_Times Props_Times Props_Numeric Props_Table Props_Table2.
Import ListNotations.
Open Scope string_scope.

(** ** C207, C208, C214: two records; the second has no time and a magnitude that is not a number *)
Definition first_record : Spec_Table.record := [("eventID", Some "e1"); ("magnitude", Some "2.5"); ("time", Some "2021-12-25T14:49:40.125942Z"); ("magnitude_type", Some "ML"); ("magnitude_uncertainty", Some "0.1"); ("magnitude_ML", Some "2.5")].
Definition second_record : Spec_Table.record := [("eventID", Some "e2"); ("event_type", Some "nan"); ("magnitude", Some "5km"); ("depth", Some "10")].
Definition two_entries : list Spec_Times.entry := [Text "T" quake; Missing].
Example two_times : Forall2 time_entry [first_record; second_record] two_entries /\ Forall entry_ok two_entries /\ Forall entry_in_range two_entries.
Proof.
  destruct C177_example as (Q1 & _ & Q2 & _ & Q3 & _). split; [|split].
  - constructor; [split; [reflexivity|rewrite Q3; reflexivity]|]. constructor; [left; reflexivity|constructor].
  - constructor; [split; [left; reflexivity|exact Q1]|]. constructor; [exact I|constructor].
  - constructor; [intros ns [= <-]; exact Q2|]. constructor; [intros ns H; discriminate H|constructor].
Qed.
Definition two_and_a_half := {| n_sign := NoSign; n_int := [2]; n_frac := Some [5]; n_exp := None |}%nat.
Definition ten := {| n_sign := NoSign; n_int := [1; 0]; n_frac := None; n_exp := None |}%nat.
Lemma says_two_and_a_half : spells "2.5" two_and_a_half.
Proof. apply (spells_self two_and_a_half). wf. Qed.
Section Doubles.
  Context (L : libm).
  #[local] Instance FD : Num xr := F64 L.
  Example C207_case iu : exists k (t : table xr), table_from_dict IsCatalog [first_record; second_record] iu true = Ok (k, t) /\ k <> PlainFrame /\ t_rows t = 2%nat /\
    at_ (t_cols t) "magnitude" 0 (EFloat (Fin (rnd (value two_and_a_half)))) /\ at_ (t_cols t) "magnitude" 1 (EFloat NaN) /\
    at_ (t_cols t) "time" 0 (ETime (instant quake)) /\ at_ (t_cols t) "time" 1 ENone /\
    at_ (t_cols t) "magnitude_type" 0 (EText "ML") /\ at_ (t_cols t) "magnitude_type" 1 ENone /\ at_ (t_cols t) "event_type" 1 ENone /\
    at_ (t_cols t) "eventID" 1 (EText "e2") /\ at_ (t_cols t) "magnitude_ML" 0 (EText "2.5") /\
    (iu = true -> at_ (t_cols t) "magnitude_uncertainty" 0 (EText "0.1")) /\ (iu = false -> ~ In "magnitude_uncertainty" (map fst (t_cols t))).
  Proof.
    destruct two_times as (F1 & F2 & F3).
    assert (Hm : exists r : Spec_Table.record, In r [first_record; second_record] /\ In "magnitude" (map fst r)) by (exists first_record; split; cbn; tauto).
    assert (Hn : exists r : Spec_Table.record, In r [first_record; second_record] /\ r <> []) by (exists first_record; split; [left; reflexivity|discriminate]).
    destruct (C207_succeeds (T := xr) IsCatalog [first_record; second_record] iu true two_entries ltac:(discriminate) Hm F1 F2) as (k & t & H & Hk). exists k, t. split; [exact H|]. split; [exact Hk|].
    destruct (C207_rows_and_columns _ _ _ _ _ _ H Hn) as (R & _ & _ & Sel). split; [exact R|].
    assert (Nan : at_ (t_cols t) "magnitude" 1 (EFloat NaN)).
    { apply (C208_no_numbers L _ _ _ _ _ _ "magnitude" 1 second_record H); [cbn; tauto|reflexivity|exact Hm|]. right. exists "5km". split; [reflexivity|]. split; apply C199_example. }
    split. { destruct (C208_numbers L _ _ _ _ _ _ "magnitude" 0 first_record "2.5" two_and_a_half H) as [X|(z & (l & X1 & X2) & _)]; [cbn; tauto|reflexivity|reflexivity|exact says_two_and_a_half|vm_compute; lia|vm_compute; discriminate|vm_compute; split; discriminate|exact X|].
      exfalso. destruct Nan as (l' & Y1 & Y2). rewrite X1 in Y1. injection Y1; intros <-.
      assert (Z : forall c : Numeric_model.column xr, nth_error (of_numeric c) 0 = Some (EInt z) -> nth_error (of_numeric c) 1 <> Some (EFloat NaN)).
      { intros [zs|fs]; cbn [of_numeric]; rewrite !nth_error_map; [destruct (nth_error zs 1); discriminate|destruct (nth_error fs 0); discriminate]. }
      destruct (kept_column _ _ _ _ _ _ "magnitude" 0 first_record H eq_refl) as (l2 & Z1 & Z2); [apply Table_proofs.names_of_in; exact Hm|destruct iu; reflexivity|]. rewrite Z1 in X1. injection X1; intros ->. rewrite (number_converts L) in Z2 by (cbn; tauto). injection Z2; intros <-. exact (Z _ X2 Y2). }
    split; [exact Nan|].
    destruct (C208_times _ _ _ _ _ _ two_entries 0 H F1 F2) as [T1 _]. destruct (C208_times _ _ _ _ _ _ two_entries 1 H F1 F2) as [_ T2].
    split; [apply (T1 quake eq_refl); exact F3|]. split; [apply T2; [exists first_record; split; cbn; tauto|reflexivity]|].
    pose proof (fun i r => C208_texts _ _ _ _ _ _ "magnitude_type" i r H (or_introl eq_refl)) as Ty.
    pose proof (fun i r => C208_texts _ _ _ _ _ _ "event_type" i r H (or_intror (or_introl eq_refl))) as Et.
    split; [exact (proj1 (Ty 0%nat first_record eq_refl) "ML" eq_refl)|]. split; [apply (proj2 (Ty 1%nat second_record eq_refl)); [exists first_record; split; cbn; tauto|left; reflexivity]|].
    split; [exact (proj1 (Et 1%nat second_record eq_refl) "nan" eq_refl)|].
    assert (No : forall c, matches_end uncertainty_suffixes c = false -> iu = false -> ~ ends_in about_uncertainty c) by (intros c Q _ K; apply Props_Catalog.matches_end_spec in K; change (matches_end uncertainty_suffixes c = true) in K; congruence).
    split; [refine (proj1 (C208_other_columns _ _ _ _ _ _ "eventID" 1 second_record H _ (No "eventID" eq_refl) ltac:(discriminate) eq_refl) "e2" eq_refl); cbn; intuition discriminate|].
    split; [refine (proj1 (C208_other_columns _ _ _ _ _ _ "magnitude_ML" 0 first_record H _ (No "magnitude_ML" eq_refl) ltac:(discriminate) eq_refl) "2.5" eq_refl); cbn; intuition discriminate|].
    split.
    - intros ->. apply (C214_texts_for_numbers_refuted _ _ _ _ "magnitude_uncertainty" 0 first_record "0.1" H eq_refl eq_refl). left. exists "magnitude", "_uncertainty". split; [cbn; tauto|reflexivity].
    - intros -> K. assert (P : forall l l', selected (fun c => (false = false -> ~ ends_in about_uncertainty c) /\ (true = false -> ~ ends_in about_ids c)) l l' -> ~ In "magnitude_uncertainty" l').
      { clear. intros l l' S. induction S as [|x l l' H S IH|x l l' H S IH]; [intros []|intros [-> |Q]; [|exact (IH Q)]|exact IH]. destruct H as [H _]. apply H; [reflexivity|]. exists "magnitude", "_uncertainty". split; [cbn; tauto|left; reflexivity]. }
      exact (P _ _ Sel K).
  Qed.

  (** ** C209, C210: the same records without magnitudes *)
  Definition no_magnitude : Spec_Table.record := [("eventID", Some "e1"); ("time", Some "2021-12-25T14:49:40.125942Z"); ("event_type", Some "earthquake")].
  Example C210_case : @table_from_dict xr FD IsCatalog [no_magnitude] false false = Err AttributeError /\ exists t, @table_from_dict xr FD IsCatalog [no_magnitude] true true = Ok (IsCatalog, t).
  Proof.
    destruct C177_example as (Q1 & _ & Q2 & _ & Q3 & _).
    assert (F1 : Forall2 time_entry [no_magnitude] [Text "T" quake]) by (constructor; [split; [reflexivity|rewrite Q3; reflexivity]|constructor]).
    split; [|eexists; vm_compute; reflexivity]. apply (C210_without_magnitude_refuted _ _ [Text "T" quake]).
    - exists no_magnitude. split; [left; reflexivity|discriminate].
    - intros r [<-|[]]. cbn. intuition discriminate.
    - exact F1.
    - constructor; [split; [left; reflexivity|exact Q1]|constructor].
  Qed.
  Example C209_case : exists t, @init_table xr FD (frame_of [no_magnitude]) = Ok t /\ t_rows t = 1%nat /\ at_ (t_cols t) "time" 0 (ETime (instant quake)).
  Proof. eexists. split; [vm_compute; reflexivity|]. split; [reflexivity|]. eexists. split; [vm_compute; reflexivity|reflexivity]. Qed.

  (** ** C213: the table of C150 *)
  Definition new_year := mkst 2020 1 1 0 0 0 6 0.
  Lemma new_year_ok : st_valid new_year /\ in_range (instant new_year) /\ time_text "T" new_year true = "2020-01-01T00:00:00.000000Z".
  Proof.
    split; [|split; [unfold in_range; change (instant new_year) with 63713433600000000000%Z; lia|reflexivity]].
    assert (V : forall y mo d n, (1 <= y <= 9999)%Z -> Spec_Utils.month_length y mo n -> (1 <= d <= n)%Z -> Spec_Utils.valid_date y mo d) by (intros; split; [assumption | exists n; split; assumption]).
    split; [apply (V _ _ _ 31%Z); [cbn; lia | right; right; cbn; tauto | cbn; lia] | split; [unfold Spec_Utils.valid_time; cbn; lia | split; [cbn; lia | unfold Spec_Utils.fits; cbn; lia]]].
  Qed.
  Example C213_case tf tm iu ii iq : exists text rows' k' (t : table xr), to_quakeml_text (fun _ => "7") " " " " sample_columns local_id sample_rows = Ok text /\ picked row_complete sample_rows rows' /\
    (forall files path, files path = Some text -> from_quakeml cut_first tf tm (fun l => l) files IsCatalog path true iu ii iq = Made k' t) /\
    exists row, nth_error rows' 0 = Some row /\ t_rows t = List.length rows' /\ number_at t "magnitude" 0 2.1 /\ at_ (t_cols t) "time" 0 (ETime (instant new_year)) /\ at_ (t_cols t) "magnitude_type" 0 (EText "ML").
  Proof.
    destruct new_year_ok as (Y1 & Y2 & Y3).
    assert (Tm : forall row, In row sample_rows -> time_known row new_year) by (intros row Hr; unfold sample_rows in Hr; cbn [In] in Hr; unfold time_known; rewrite Y3; repeat (destruct Hr as [<-|Hr]; [reflexivity|]); destruct Hr).
    destruct (C213_round_trip L cut_first tf tm (fun l => l) (fun _ => "7") " " " " sample_columns local_id sample_rows IsCatalog iu ii iq) as (text & rows' & k' & t & E & P & _ & F & _ & R & _ & G).
    - apply cut_first_fair.
    - intros l _. apply Permutation_refl.
    - discriminate.
    - apply sample_good.
    - intros s. split; [discriminate|reflexivity].
    - intros. apply local_id_ok.
    - apply sample_writable.
    - apply writable_lit. reflexivity.
    - apply writable_lit. reflexivity.
    - intros s. apply writable_lit. reflexivity.
    - intros. apply local_id_ok.
    - intros row Hr _. exists new_year. split; [apply Tm; exact Hr|exact Y1].
    - eexists. split; [left; reflexivity|]. split; [split; [|split]; eexists; reflexivity|eexists; reflexivity].
    - exists text, rows', k', t. split; [exact E|]. split; [exact P|]. split; [exact F|].
      assert (Hr0 : nth_error rows' 0 = Some (sample_row (Val "ML") (Val "47.1") (Val "2.4"))).
      { inversion P; subst; [reflexivity|]. exfalso. match goal with H : ~ row_complete _ |- _ => apply H end. split; [|split]; eexists; reflexivity. }
      eexists. split; [exact Hr0|]. split; [exact R|]. destruct (G 0%nat _ Hr0) as (G1 & _ & G3 & G4).
      split; [|split].
      + set (n := {| n_sign := NoSign; n_int := [2]; n_frac := Some [1]; n_exp := None |}%nat).
        replace 2.1%R with (value n). 
        * apply (G1 "magnitude" "2.1" n); [cbn; tauto|reflexivity|apply (spells_self n); wf|vm_compute; lia|vm_compute; discriminate|vm_compute; split; discriminate].
        * unfold value. change (sgn_Z (n_sign n) * mantissa n)%Z with 21%Z. change (exponent n) with (-1)%Z. cbn [powerRZ]. rewrite pow_1. lra.
      + apply (G3 new_year); [apply Tm; left; reflexivity|exact Y1|]. intros row' y Hy Ty Vy. assert (K : time_known row' new_year) by (apply Tm; exact (proj1 (picked_in _ _ _ _ P Hy))).
        unfold time_known in K, Ty. rewrite K in Ty. destruct (same_time new_year y Y1 Vy) as [<- _]; [congruence|exact Y2].
      + apply (G4 "magnitude_type" "ML"); [cbn; tauto|reflexivity|]. cbn. intuition discriminate.
  Qed.
End Doubles.
(** ** C211, C212: a file with the document of C54 *)
Definition a_disk (name : string) : option string := if name =? "events.xml" then Some sample_text else None.
Example C211_case {T} {N : Num T} tf tm k ia iu ii iq :
  @from_quakeml T N cut_first tf tm (fun l => l) a_disk k "events.xml" ia iu ii iq = from_quakeml cut_first tf tm (fun l => l) a_disk k sample_text ia iu ii iq /\
  @from_quakeml T N cut_first tf tm (fun l => l) a_disk k "event.xml" ia iu ii iq = NotParsed.
Proof.
  split.
  - unfold sample_text. refine (proj1 (C211_file_or_text cut_first tf tm (fun l => l) a_disk k "events.xml" ("<?xml?>" ++ newline) Props_QuakeML.sample newline ia iu ii iq cut_first_fair sample_heading eq_refl _ _ sample_safe _ _)); [repeat constructor|discriminate|reflexivity|vm_compute; reflexivity].
  - apply C211_missing_file; [reflexivity|discriminate|]. intros a c b H. do 9 (destruct a as [|? a]; [injection H as <- _; discriminate|injection H as _ H]). destruct a; discriminate.
Qed.
(** ** C215: the service of C193 *)
Definition ids_of (x : option (@dated xr unit * list (dict (pval xr)))) : option (nat * option (list (Table_model.entry xr))) :=
  match x with Some (mkdated (Made _ t) _ _, _) => Some (t_rows t, dget (t_cols t) "eventID") | _ => None end.
Example C215_case : ids_of (@get_events xr XR unit (fun _ => "") service cut_first (fun _ => Ok 1%Q) (fun _ => Ok 1%Z) (fun l => l) 10 true true true (no_args (Some 2%Z)))
  = Some (5%nat, Some (map EText ["ev1"; "ev2"; "ev3"; "ev4"; "ev5"])).
Proof. vm_compute. reflexivity. Qed.
