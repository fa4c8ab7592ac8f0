(** * A case that meets the hypotheses of C223 *)
From Coq Require Import ZArith QArith List Bool String Ascii Lia Lra Reals Permutation.
From Flocq Require Import Core.
From Verif Require Import Base Num XR F64 Spec_F64 Dict QuakeML_model Spec_QuakeML QuakeML_proofs Props_QuakeML Props_QuakeML2 Spec_Export Spec_Xml Xml_model Xml_proofs Recut_proofs Spec_Spelling Escape_proofs Tests_Xml.
From Verif Require Import Table_model Spec_Table Spec_Numeric Spec_Times Props_Numeric Props_Table Tests_Table.
From Verif Require Import StateM BValue_model Spec_BValue F64_proofs F64_est F64_fmd F64_test F64_select F64_acc Props_F64b Props_F64d Props_F64 Props_F64c Catalog_model Workflow_model Props_Workflow Props_Workflow2.
Import ListNotations.
Open Scope string_scope.

(** three events: magnitude 2.1 and magnitude 2.4 preferred, and one whose preferred magnitude is not there *)
Definition quake_event (id mag_id value : string) : Spec_QuakeML.event := mkevent [("publicID", id)]
  [Plain (PElem "preferredMagnitudeID" [] [PText ["m"]]); Magnitude [("publicID", mag_id)] [PElem "mag" [] [PElem "value" [] [PText [value]]]; PElem "type" [] [PText ["ML"]]]].
Definition three : doc := DElem "quakeml" [] [DEvent (quake_event "e1" "m" "2.1"); DEvent (quake_event "e2" "other" "3.0"); DEvent (quake_event "e3" "m" "2.4")].
Definition three_text : string := "<?xml?>" ++ newline ++ "" ++ xml_esc (plain_of_doc three) ++ "".
Definition number (a b : nat) := {| n_sign := NoSign; n_int := [a]; n_frac := Some [b]; n_exp := None |}.
Lemma three_writable : writable_tree (plain_of_doc three).
Proof.
  unfold three, quake_event. cbn [plain_of_doc map ev_attrs ev_children plain_of_child].
  repeat match goal with
  | |- writable_tree (PText _) => reflexivity
  | |- writable_tree (PElem _ _ _) => (split; [reflexivity|split; [split; [repeat constructor; cbn; intuition discriminate|repeat constructor; cbn; intuition discriminate]|split; [cbn; repeat split; auto; discriminate|]]])
  | |- fold_right _ True [] => exact I
  | |- fold_right _ True (_ :: _) => split
  | |- _ /\ _ => split
  end.
Qed.
Lemma w11' : widthR 1 1 = (/ 10)%R.
Proof. unfold widthR. cbn. lra. Qed.
Lemma first_alone {A} (P : A -> Prop) x : P x -> first_with P [x] x.
Proof. intros H. exists [], []. split; [reflexivity|]. split; [exact H|intros ? []]. Qed.
Example three_states : Forall2 (states 1 1) (map merge_event (events_of three)) [Some 21%Z; None; Some 24%Z].
Proof.
  constructor; [|constructor; [|constructor; [|constructor]]].
  - eexists _, "2.1", (number 2 1). split; [apply first_alone; exists "m"; split; reflexivity|]. split; [reflexivity|]. split; [apply (spells_self (number 2 1)); wf|]. split; [rewrite w11'; change (Spec_Numeric.value (number 2 1)) with (IZR 21 * powerRZ 10 (-1))%R; cbn [Z.opp Pos.to_nat]; unfold powerRZ; rewrite pow_1; reflexivity|]. split; [vm_compute; lia|]. split; [vm_compute; discriminate|vm_compute; split; discriminate].
  - left. intros f [<-|[]] (i & A & B). vm_compute in A, B. congruence.
  - eexists _, "2.4", (number 2 4). split; [apply first_alone; exists "m"; split; reflexivity|]. split; [reflexivity|]. split; [apply (spells_self (number 2 4)); wf|]. split; [rewrite w11'; change (Spec_Numeric.value (number 2 4)) with (IZR 24 * powerRZ 10 (-1))%R; unfold powerRZ; rewrite pow_1; reflexivity|]. split; [vm_compute; lia|]. split; [vm_compute; discriminate|vm_compute; split; discriminate].
Qed.
Definition a_file (name : string) : option string := if name =? "three.xml" then Some three_text else None.
(** the catalogue can be made, and the classic b-value with mc = 2.1 is close to the exact one of 2.1
    and 2.4 *)
Example C223_case tf tm srt w iu ii iq : exists K (t : Table_model.table xr),
  @from_quakeml xr (F64 rounding_lib) cut_first tf tm (fun l => l) a_file IsCatalog "three.xml" true iu ii iq = Made K t /\
  exists c' o' b, @cat_estimate_b xr (F64 rounding_lib) srt w (Some (Fin (decimal 1 1 21))) (Some (width 1 1)) None Classic (mkkwb None None) (@catalog_of xr (F64 rounding_lib) t) = (c', Ok o') /\ c_b c' = Some (Fin b) /\
    accurate (/ 10) 2 b (exact_classic (/ 10) (15 / 100)).
Proof.
  assert (P : exists r1 r2 r3, parse_quakeml_file cut_first tf tm (fun l => l) true iq three_text = Records [r1; r2; r3] /\ silent r1 "time" /\ silent r2 "time" /\ silent r3 "time" /\ In "magnitude" (map fst r1)).
  { destruct iq; do 3 eexists; (split; [vm_compute; reflexivity|]); (split; [right; reflexivity|split; [right; reflexivity|split; [right; reflexivity|cbn; tauto]]]). }
  destruct P as (r1 & r2 & r3 & P & T1 & T2 & T3 & M).
  destruct (@C207_succeeds xr (F64 rounding_lib) IsCatalog [r1; r2; r3] iu ii [Missing; Missing; Missing]) as (K & t & E & _).
  - discriminate.
  - exists r1. split; [left; reflexivity|exact M].
  - constructor; [exact T1|constructor; [exact T2|constructor; [exact T3|constructor]]].
  - repeat constructor.
  - assert (Hm : @from_quakeml xr (F64 rounding_lib) cut_first tf tm (fun l => l) a_file IsCatalog "three.xml" true iu ii iq = Made K t).
    { unfold from_quakeml. change (a_file "three.xml") with (Some three_text). cbv iota beta. rewrite P. cbn [make]. rewrite E. reflexivity. }
    exists K, t. split; [exact Hm|]. destruct C176_example as [SO LA].
    assert (B : forall k, In k [21%Z; 24%Z] -> below8 1 1 k) by (intros k [<-|[<-|[]]]; unfold below8; rewrite w11', Rabs_pos_eq; lra).
    destruct (C223_document cut_first tf tm (fun l => l) rounding_lib 1 1 ex_width a_file IsCatalog "three.xml" ("<?xml?>" ++ newline) "" three (xml_esc (plain_of_doc three)) "" true iu ii iq K t [Some 21%Z; None; Some 24%Z] srt Classic w 21) as (c' & o' & b & G1 & G2 & G3).
    + apply cut_first_fair.
    + apply sample_heading.
    + apply misc_nil.
    + apply misc_nil.
    + repeat constructor.
    + discriminate.
    + apply esc_written, three_writable.
    + intros l _. apply Permutation_refl.
    + reflexivity.
    + exact Hm.
    + unfold three. cbn [map events_of flat_map app].
      repeat (apply Forall_cons; [intros f ty [<-|[]] Q; vm_compute in Q; injection Q as <-; split; [reflexivity|cbn; intuition discriminate]|]). constructor.

    + apply three_states.
    + exact SO.
    + exact LA.
    + exact B.
    + unfold moderate. rewrite w11', Rabs_pos_eq; lra.
    + cbn. lia.
    + left. split; [reflexivity|]. exists 24%Z. split; [cbn; tauto|lia].
    + exists c', o', b. split; [exact G1|]. split; [exact G2|]. cbn [present filter Z.leb Z.compare Pos.compare Pos.compare_cont List.length] in G3. rewrite w11' in G3.
      replace (15 / 100)%R with (mean_excess (/ 10) 21 [21; 24]%Z); [exact G3|]. unfold mean_excess. cbn. lra.
Qed.
