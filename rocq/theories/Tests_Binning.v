(** Tests of the binning model on vectors from the repository (docstrings and
    seismostats/utils/tests/test_binning.py).  Tests, not proofs of properties. *)
From Coq Require Import ZArith List Floats Bool.
From Verif Require Import Base Num FloatInst Binning_model.
Import ListNotations.
Definition okl (r : res (list float)) (e : list float) : bool :=
  match r with Ok l => closel l e | Err _ => false end.
Definition d01 := mkdec 1 (-1).
Definition d001 := mkdec 1 (-2).
Example doc_bin1 : okl (bin_to_precision (Some [fl 1234 3; fl 2345 3; fl 3456 3]) d01)
  [fl 12 1; fl 23 1; fl 35 1] = true. Proof. vm_compute. reflexivity. Qed.
Example doc_bin2 : okl (bin_to_precision (Some [fl 1234 3; fl 2345 3; fl 3456 3]) d001)
  [fl 123 2; fl 235 2; fl 346 2] = true. Proof. vm_compute. reflexivity. Qed.
Definition t15 := fl 1 15.
Example doc_bt1 : binning_test [fl 2 1; fl 4 1; fl 6 1] (mkdec 2 (-1)) t15 true = Ok true.
Proof. vm_compute. reflexivity. Qed.
Example doc_bt2 : binning_test [fl 2 1; fl 4 1; fl 6 1] (mkdec 1 (-1)) t15 true = Ok true.
Proof. vm_compute. reflexivity. Qed.
Example doc_bt3 : binning_test [fl 2 1; fl 4 1; fl 6 1] (mkdec 5 (-2)) t15 true = Ok false.
Proof. vm_compute. reflexivity. Qed.
Example doc_bt4 : binning_test [fl 2 1; fl 4 1; fl 6 1] (mkdec 5 (-2)) t15 false = Ok true.
Proof. vm_compute. reflexivity. Qed.
Example doc_fmd : match get_fmd [fl 9 1; fl 11 1; fl 12 1; fl 13 1; fl 21 1; fl 22 1; fl 23 1]
                                (mkdec 10 (-1)) None Center with
                  | Ok (b, c, m) => closel b [fl 1 0; fl 2 0] && closel c [fl 4 0; fl 3 0]
                                    && closel m (map (fun z => fl z 0) [1;1;1;1;2;2;2]%Z)
                  | Err _ => false end = true.
Proof. vm_compute. reflexivity. Qed.
Example doc_cfmd : match get_cum_fmd [fl 9 1; fl 11 1; fl 12 1; fl 13 1; fl 21 1; fl 22 1; fl 23 1]
                                (mkdec 10 (-1)) None Center with
                  | Ok (b, c, m) => closel b [fl 1 0; fl 2 0] && closel c [fl 7 0; fl 3 0]
                  | Err _ => false end = true.
Proof. vm_compute. reflexivity. Qed.
Example cfmd0 : match get_cum_fmd [fl 2 0; fl 1 0; fl 2 0; fl 5 0] (mkdec 0 0) None Center with
                  | Ok (b, c, m) => closel b [fl 1 0; fl 2 0; fl 5 0] && closel c [fl 4 0; fl 3 0; fl 1 0]
                  | Err _ => false end = true.
Proof. vm_compute. reflexivity. Qed.
(* delta = 0: not binned to any power of ten above the tolerance / binned *)
Example bt_zero1 : binning_test [fl 123456 5; fl 22 1; fl 35 1] (mkdec 0 0) (fl 1 3) true = Ok true.
Proof. vm_compute. reflexivity. Qed.
Example bt_zero2 : binning_test [fl 12 1; fl 22 1; fl 35 1] (mkdec 0 0) (fl 1 3) true = Ok false.
Proof. vm_compute. reflexivity. Qed.
