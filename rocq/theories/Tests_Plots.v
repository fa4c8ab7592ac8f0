(** Tests of the plotting models on vectors of the repository's unit tests and docstrings. *)
From Coq Require Import ZArith List Floats Bool String.
From Verif Require Import Base Num FloatInst Binning_model BValue_model AValue_model BSig_model Plots_model StateM Tests_BValue Tests_AValue Tests_BSig.
Import ListNotations.
Definition closel (r : res (list float)) (l : list float) : bool :=
  match r with Ok l' => (Nat.eqb (length l) (length l') && forallb (fun p => PrimFloat.ltb (PrimFloat.abs (fst p - snd p)) 1e-9) (combine l l'))%bool | _ => false end.
(** plots/tests/test_basics.py *)
Example t_dot_size : closel (dot_size (ints [1;2;3;4;5]%Z) 10%float 200%float 2%float) [10; 21.875; 57.5; 116.875; 200]%float = true.
Proof. vm_compute. reflexivity. Qed.
Example t_dot_size2 : closel (dot_size (ints [5;4;3;2;1]%Z) 5%float 50%float 1%float) [50; 38.75; 27.5; 16.25; 5]%float = true.
Proof. vm_compute. reflexivity. Qed.
Example t_reverse : closel (reverse_dot_size [10; 21.875; 57.5; 116.875; 200]%float 1%float 5%float 2%float) (ints [1;2;3;4;5]%Z) = true.
Proof. vm_compute. reflexivity. Qed.
(** analysis/tests/test_magnitudes.py *)
Example t_edwards : match apply_edwards "ML"%string 3%float with
  | Some (t, v) => (String.eqb t "Mw_converted" && PrimFloat.ltb (PrimFloat.abs (v - 2.8779)) 1e-12)%bool | None => false end = true.
Proof. vm_compute. reflexivity. Qed.
Example t_edwards_mw : apply_edwards "Mw"%string 3%float = Some ("Mw"%string, 3%float).
Proof. reflexivity. Qed.
(** a running series: six windows of five magnitudes each *)
Example t_series : match plot_b_series asort (fun _ => 2%float) Classic false (fun _ => []) (ints [1;2;3;4;5;1;2;3;4;5]%Z) (mkdec 1 0) (Scalar 1%float) (zs 10) 5 2 None TRight no_kw 0.95%float with
  | Ok l => (Nat.eqb (length l) 10 && forallb (fun p => PrimFloat.is_nan (snd (fst (fst p)))) (firstn 4 l)
             && forallb (fun p => close (snd (fst (fst p))) 0.17609125905568124) (skipn 4 l))%bool
  | _ => false end = true.
Proof. vm_compute. reflexivity. Qed.
