(** Tests of the b_significant model on vectors of the repository's unit tests. *)
From Coq Require Import ZArith List Floats Bool.
From Verif Require Import Base Num FloatInst Binning_model BValue_model AValue_model BSig_model Tests_BValue Tests_AValue.
Import ListNotations.
Definition ints (l : list Z) : list float := map (fun z => fl z 0) l.
Example t_cut : cut_constant_idx (seq 1 20) 5 0 = Ok ([5; 10; 15]%nat, [[1;2;3;4;5]; [6;7;8;9;10]; [11;12;13;14;15]; [16;17;18;19;20]]%nat).
Proof. reflexivity. Qed.
Definition okm (r : res (float * nat * float)) (ac : float) (n : nat) (np : float) : bool :=
  match r with Ok (a, n', np') => (PrimFloat.ltb (PrimFloat.abs (a - ac)) 1e-12 && (n =? n')%nat && PrimFloat.eqb np np')%bool | _ => false end.
Example t_moran : okm (est_morans_i (ints [1;2;3;4;5]%Z) None None) 0.4 5 4 = true.
Proof. vm_compute. reflexivity. Qed.
Definition wmat (l : list (list Z)) : mat float :=
  mkmat (length l) (length (hd [] l)) (fun i j => fl (nth j (nth i l []) 0%Z) 0).
Definition w5 := wmat [[0;1;1;0;0];[1;0;1;0;0];[1;1;0;0;0];[0;0;0;0;1];[0;0;0;1;0]]%Z.
Example t_moran_doc : okm (est_morans_i (ints [2;2;2;4;4]%Z) (Some w5) (Some (fl 3 0))) 0.8 5 4 = true.
Proof. vm_compute. reflexivity. Qed.
Example t_moran_nan : okm (est_morans_i [4;4;4;nan;4;4;4]%float None (Some (fl 3 0))) (5/6)%float 6 4 = true.
Proof. vm_compute. reflexivity. Qed.
Example t_moran_err : est_morans_i (ints [1;2;3;4;5]%Z) (Some (wmat [[0;0;0;1;1];[0;0;0;0;0];[0;0;0;0;0];[0;0;0;0;0];[0;1;0;0;0]]%Z)) None = Err ValueError.
Proof. vm_compute. reflexivity. Qed.
Definition close (a b : float) : bool := PrimFloat.ltb (PrimFloat.abs (a - b)) 1e-7.
Example t_transform : match transform_n [1; 1; 2; 0.5; 2]%float (fl 1 0) (ints [10;100;100;100;1000]%Z) (ints [1000;1000;1000;1000;1000]%Z) with
  | Ok l => forallb (fun p => close (fst p) (snd p)) (combine l [1;1;1.1878091107778657;0.7597469266479578;2]%float) | _ => false end = true.
Proof. vm_compute. reflexivity. Qed.
Definition kw0 : kwargs float := mkkw None None None None.
Definition day := ints.

Definition vfp m kw := values_from_partitioning asort m false kw (fun _ => []) [ints [1;2;3;4;5]%Z; ints [1;2;3;4;5]%Z; ints [1;2;3;4;5]%Z]
  [day [1;2;3;4;5]%Z; day [6;7;8;9;10]%Z; day [11;12;13;14;15]%Z] (Scalar (fl 1 0)) (mkdec 1 0) None.
Definition okv (r : res (list (float * float * nat))) (v : float) : bool :=
  match r with Ok l => (Nat.eqb (length l) 3 && forallb (fun x => close (fst (fst x)) v) l)%bool | _ => false end.
Example t_vfp : okv (vfp (MB Classic) kw0) 0.17609125905568124 = true /\ okv (vfp (MA APositive) kw0) 0.60206 = true /\
  okv (vfp (MA AMorePositive) (mkkw None None (Some (fl 1 0)) None)) 2.1584059 = true /\ okv (vfp (MA AClassic) kw0) 0.69897 = true.
Proof. repeat split; vm_compute; reflexivity. Qed.
Definition zs (n : nat) := map (fun i => fl (Z.of_nat i) 0) (seq 0 n).
Definition bs1 := b_significant_1D asort (fun _ _ x => x) (MB Classic) false kw0 (fun _ _ => []) (zs 1000) (Scalar (fl 0 0)) (mkdec 1 0) (zs 1000) 20 2 None true.
Example t_bsig : match bs1 with Ok (p, mac, mu, sd) => (close mac 0.5184342563144473 && close mu (-0.020387359836901122) && close sd 0.1382577696134609)%bool | _ => false end = true.
Proof. vm_compute. reflexivity. Qed.
