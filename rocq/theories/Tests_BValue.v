(** Tests of the b-value model on the repository's docstring / unit-test vectors. *)
From Coq Require Import ZArith List Floats Bool.
From Verif Require Import Base Num FloatInst Binning_model BValue_model.
Import ListNotations.
Definition d01 := mkdec 1 (-1).
Definition fl1 (l : list Z) := map (fun z => fl z 1) l.
Definition docmags := fl1 [20;25;21;22;25;22;26;23;27;22;24;20;27;22;23;21;24;26;22;22;27;24;22;25]%Z.
Definition asort (l : list float) := argsort_by nsort_le l.
Definition run (k : kind) (a : args) : res float := snd (calculate asort k true a new_obj).
Definition okf (r : res float) (e : float) : bool := match r with Ok x => close x e | Err _ => false end.
Example doc_classic : okf (run Classic (mkargs docmags (fl 2 0) d01 None None None)) 1.114920128810535 = true.
Proof. vm_compute. reflexivity. Qed.
Example doc_utsu : okf (run Utsu (mkargs docmags (fl 2 0) d01 None None None)) 1.1088369750721319 = true.
Proof. vm_compute. reflexivity. Qed.
Example doc_positive : okf (run BPositive (mkargs docmags (fl 2 0) d01 None None (Some (fl 2 1)))) 1.9188552623891313 = true.
Proof. vm_compute. reflexivity. Qed.
Example doc_more_positive : okf (run BMorePositive (mkargs docmags (fl 2 0) d01 None None (Some (fl 2 1)))) 2.253092817258629 = true.
Proof. vm_compute. reflexivity. Qed.
Example doc_positive_default : okf (run BPositive (mkargs docmags (fl 2 0) d01 None None None)) 1.5490195998574323 = true.
Proof. vm_compute. reflexivity. Qed.
Example test_beta : match calculate asort Classic true (mkargs (fl1 [1;3;0;5;4;1;3;0;2;10]%Z) (fl 0 0) d01 None None None) new_obj with
  | (o, Ok _) => okf (est_beta o) 2.9626581614317242 | _ => false end = true.
Proof. vm_compute. reflexivity. Qed.
Example doc_next_larger : find_next_larger (map (fun z => fl z 0) [10;4;3;9]%Z) (fl 1 0) None = [0;3;3;0]%nat.
Proof. vm_compute. reflexivity. Qed.
(* test_bvalues: magnitudes [0,.9,-1,.2,.5,1] -> idx [1,5,3,4,5] for B more positive *)
Example test_idx : match calculate asort BMorePositive true
    (mkargs (fl1 [0;9;-10;2;5;10]%Z) (fl (-10) 1) d01 None None (Some (fl 1 1))) new_obj with
  | (o, Ok _) => match idx_of o with [1;5;3;4;5]%nat => true | _ => false end | _ => false end = true.
Proof. vm_compute. reflexivity. Qed.
Example test_more_incomplete :
  match make_more_incomplete asort (map (fun z => fl z 0) [1;2;20;19;9]%Z) (map (fun z => fl z 0) [0;10;20;21;100]%Z) (fl 60 0) with
  | Ok (m, _, _) => closel m (map (fun z => fl z 0) [1;2;20;9]%Z) | _ => false end = true.
Proof. vm_compute. reflexivity. Qed.
(* delta_m = 0: BPositive works, BMorePositive raises ValueError *)
Example zero_delta : okf (run BPositive (mkargs (fl1 [1;3;2;5]%Z) (fl 0 0) (mkdec 0 0) None None (Some (fl 1 1)))) 2.8952965460216789 = true
  /\ run BMorePositive (mkargs (fl1 [1;3;2;5]%Z) (fl 0 0) (mkdec 0 0) None None (Some (fl 1 1))) = Err ValueError.
Proof. vm_compute. split; reflexivity. Qed.
