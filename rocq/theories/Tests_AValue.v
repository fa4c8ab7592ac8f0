(** Tests of the a-value model on the repository's docstring vectors. *)
From Coq Require Import ZArith List Floats Bool.
From Verif Require Import Base Num FloatInst Binning_model BValue_model AValue_model Tests_BValue.
Import ListNotations.
Definition amags := fl1 [21;23;20;20;21;22;21;23;20;20]%Z.
Definition atimes := map (fun z => fl z 0) [1;2;3;4;5;6;7;8;9;10]%Z.
Definition aa (b : option float) := mkaargs amags (fl 2 0) d01 None None b atimes None.
Example doc_aclassic : okf (estimate_a asort AClassic true (aa None)) 1 = true.
Proof. vm_compute. reflexivity. Qed.
Example doc_apositive : okf (estimate_a asort APositive true (aa None)) 0.9542425094393249 = true.
Proof. vm_compute. reflexivity. Qed.
Example doc_amore : okf (estimate_a asort AMorePositive true (aa (Some 1%float))) 0.730070812347905 = true.
Proof. vm_compute. reflexivity. Qed.
