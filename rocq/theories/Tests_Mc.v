(** Tests of the model of estimate_mc.py on the vectors of the repository's unit tests. *)
From Coq Require Import ZArith List Floats Bool.
From Verif Require Import Base Num FloatInst Binning_model BValue_model Mc_model Tests_BValue.
Import ListNotations.
Definition mags100 := fl1 [23;12;15;12;17;11;12;15;18;16;12;15;12;17;16;11;11;12;20;11;12;11;12;16;19;13;17;13;10;12;17;13;13;11;15;14;11;21;12;22;17;16;11;20;21;12;10;15;12;17;18;11;13;11;13;14;21;20;11;22;18;14;11;10;20;20;11;10;10;15;16;37;28;15;11;12;14;23;15;12;17;11;16;12;15;11;12;17;12;16;12;11;18;12;11;10;13;11;16;16]%Z.
Definition closeto (a b : float) : bool := PrimFloat.ltb (PrimFloat.abs (a - b)) 1e-7.
(* test_estimate_mc_maxc *)
Example t_maxc : estimate_mc_maxc mags100 d01 (fl 2 1) = Ok (fl 13 1).
Proof. vm_compute. reflexivity. Qed.
(* test_estimate_mc_b_stability_larger_bins *)
Definition stab mcs := estimate_mc_b_stability asort Classic no_kw (fun _ => []) true mags100 d01 mcs true (fl 5 1).
Example t_stab : match stab None with Ok r => match st_mc r with Some c => closeto c 1.1 | None => false end | _ => false end = true.
Proof. vm_compute. reflexivity. Qed.
(* test_estimate_mc_b_stability_fail *)
Example t_stab_fail : match stab (Some [fl 5 1]) with Ok r => match st_mc r, st_b r with None, None => true | _, _ => false end | _ => false end = true.
Proof. vm_compute. reflexivity. Qed.
Example t_stab_err : estimate_mc_b_stability asort Classic no_kw (fun _ => []) true (map (fun x => (x * 1.01234)%float) mags100) d01 (Some [fl 11 1]) true (fl 5 1) = Err ValueError.
Proof. vm_compute. reflexivity. Qed.
(* test_cdf_discrete_exp *)
Example t_cdf : forallb (fun p => closeto (fst p) (snd p)) (combine (snd (cdf_discrete_exp mags100 (fl 1 0) (fl 1 1) (fl 2 0)))
  [0.18126925; 0.32967995; 0.45118836; 0.55067104; 0.63212056; 0.69880579; 0.75340304; 0.79810348; 0.83470111; 0.86466472; 0.88919684; 0.90928205; 0.92572642; 0.93918994; 0.97762923; 0.99630214]%float) = true
  /\ length (snd (cdf_discrete_exp mags100 (fl 1 0) (fl 1 1) (fl 2 0))) = 16%nat.
Proof. split; vm_compute; reflexivity. Qed.
(* test_estimate_mc_ks: the distance at mc = 1.1 and the selection for given distances *)
Definition ksr mcs b ks stop := estimate_mc_ks asort Classic no_kw (fun _ _ _ => fl 0 0) (fun _ _ _ => fl 0 0) true mags100 d01 mcs (fl 1 1) stop b 10 ks.
Example t_ks : match ksr (Some [fl 11 1]) None (Some [[fl 7 2; fl 8 2]]) true with
  | Ok r => match ks_tested r with [(c, (p, d, b))] => (closeto d 0.07087102843116255 && closeto p 0.5 && closeto b 0.97374250873)%bool | _ => false end | _ => false end = true.
Proof. vm_compute. reflexivity. Qed.
(* the p-values 0, 0, 0, 0.5 for the magnitudes 1.1, 1.0, 0.9, 0.8 in this (unsorted) order *)
Example t_ks_sel : match ksr (Some [fl 11 1; fl 10 1; fl 9 1; fl 8 1]) (Some (fl 9728199 7)) (Some [[fl 7 2; fl 8 2];[fl 7 2; fl 8 2];[fl 7 2; fl 8 2];[fl 7 2; fl 8 2]]) true with
  | Ok r => match ks_best r with Some (c, b) => (closeto c 1.1 && Nat.eqb (length (ks_tested r)) 4)%bool | _ => false end | _ => false end = true.
Proof. vm_compute. reflexivity. Qed.
