(** Tests of the model of the declustering on the vectors of the repository's unit tests. *)
From Coq Require Import ZArith List Floats Bool.
From Verif Require Import Base Num FloatInst Decluster_model.
Import ListNotations.
(* doctest and tests/utils_test.py, in doubles *)
Example t_haversine : PrimFloat.ltb (PrimFloat.abs (haversine (fl 8 0) (fl 48 0) (fl 8 0) (fl 47 0) - 111.19888854)) 1e-6 = true
  /\ PrimFloat.ltb (PrimFloat.abs (haversine (fl 5 0) (fl 15 0) (fl 0 0) (fl 0 0) - 1756.18897213)) 1e-6 = true
  /\ PrimFloat.ltb (PrimFloat.abs (haversine (fl 40 0) (fl 4 0) (fl 422 1) (fl 35 1) - 250.36456431)) 1e-6 = true.
Proof. repeat split; vm_compute; reflexivity. Qed.
Definition test_cat : list (event float) := [
  mkev 0 (fl (315273600) 0) (fl (50) 1) (fl (8) 1) (fl (0) 1);
  mkev 1 (fl (315446400) 0) (fl (50) 1) (fl (6) 1) (fl (0) 1);
  mkev 2 (fl (315532800) 0) (fl (70) 1) (fl (0) 1) (fl (0) 1);
  mkev 3 (fl (318124800) 0) (fl (50) 1) (fl (6) 1) (fl (0) 1);
  mkev 4 (fl (324345600) 0) (fl (50) 1) (fl (0) 1) (fl (0) 1);
  mkev 5 (fl (396835200) 0) (fl (50) 1) (fl (0) 1) (fl (0) 1);
  mkev 6 (fl (397008000) 0) (fl (40) 1) (fl (0) 1) (fl (0) 1);
  mkev 7 (fl (641865600) 0) (fl (37) 1) (fl (0) 1) (fl (0) 1);
  mkev 8 (fl (641952000) 0) (fl (50) 1) (fl (0) 1) (fl (0) 1);
  mkev 9 (fl (642038400) 0) (fl (39) 1) (fl (0) 1) (fl (0) 1);
  mkev 10 (fl (933465600) 0) (fl (38) 1) (fl (0) 1) (fl (0) 1)]%Z.
(* tests/dec_gardner_knopoff_test.py: test_dec_gardner_knopoff, with and without time cutoff *)
Definition expected := [true; false; true; false; false; true; false; false; true; false; true].
Example t_gk : rmap fst (decluster haversine (windows GardnerKnopoff None) (fl 1 0) test_cat) = Ok expected.
Proof. vm_compute. reflexivity. Qed.
Example t_gk_cutoff : rmap fst (decluster haversine (windows GardnerKnopoff (Some (fl 100 0))) (fl 1 0) test_cat) = Ok (set_nth 4 true expected) /\ nth 4 expected true = false.
Proof. split; vm_compute; reflexivity. Qed.
(* an event without a magnitude: pd.Timedelta(days=nan) *)
Example t_gk_missing : decluster haversine (windows GardnerKnopoff None) (fl 1 0) (mkev 0 (fl 0 0) nan (fl 0 0) (fl 0 0) :: nil)%Z = Err ValueError.
Proof. vm_compute. reflexivity. Qed.
(* tests/test_distance_time_windows.py *)
Definition near (eps a b : float) : bool := PrimFloat.ltb (PrimFloat.abs (a - b)) eps.
Definition chk k (es et : list float) := let '(s, t) := windows k None [fl 5 0; fl 66 1] in forallb (fun p => near 1e-6 (fst p) (snd p)) (combine s es) && forallb (fun p => near 1e-4 (fst p) (snd p)) (combine t et).
Example t_windows : chk GardnerKnopoff [39.994475; 63.107358]%float [12416915.980999; 77021813.941164]%float && chk Gruenthal [56.62752; 79.180511]%float [18923361.968176; 78507969.029983]%float
  && chk Uhrhammer [20.005355; 72.414025]%float [2354273.993272; 16983332.073632]%float = true.
Proof. vm_compute. reflexivity. Qed.
