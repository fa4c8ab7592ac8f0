(** * Proofs about the OpenQuake conversion: calendar and rounding *)
From Coq Require Import ZArith List Bool String Reals Lia Lra Psatz.
From Flocq Require Import Core Relative.
From Verif Require Import Base Spec_Utils Utils_model Utils_proofs Spec_Openquake Openquake_model.
Import ListNotations.
Open Scope Z_scope.

(** ** calendar *)
Lemma div_step y n : 0 < n -> y / n - (y - 1) / n = if y mod n =? 0 then 1 else 0.
Proof.
  intros Hn. pose proof (Z.div_mod y n ltac:(lia)) as E. pose proof (Z.mod_pos_bound y n Hn) as B.
  pose proof (Z.div_mod (y - 1) n ltac:(lia)) as E1. pose proof (Z.mod_pos_bound (y - 1) n Hn) as B1.
  set (a := y / n) in *. set (b := (y - 1) / n) in *. set (c := y mod n) in *. set (d := (y - 1) mod n) in *.
  assert (n * (a - b) = 1 + d - c) by lia.
  destruct (Z.eqb_spec c 0) as [C|C].
  - assert (0 < n * (a - b)) by lia. assert (n * (a - b) < n * 2) by lia. nia.
  - assert (n * (a - b) < n) by lia. assert (- n < n * (a - b)) by lia. nia.
Qed.
Lemma year_step y : days_before_year (y + 1) = days_before_year y + (if leap y then 366 else 365).
Proof.
  unfold days_before_year. replace (y + 1 - 1) with y by lia.
  pose proof (div_step y 4 ltac:(lia)). pose proof (div_step y 100 ltac:(lia)). pose proof (div_step y 400 ltac:(lia)).
  assert (A4 : y mod 400 = 0 -> y mod 100 = 0). { intros X. apply Z.mod_divide in X; [|lia]. apply Z.mod_divide; [lia|]. destruct X as [k ->]. exists (k * 4). lia. }
  assert (A1 : y mod 100 = 0 -> y mod 4 = 0). { intros X. apply Z.mod_divide in X; [|lia]. apply Z.mod_divide; [lia|]. destruct X as [k ->]. exists (k * 25). lia. }
  unfold leap. destruct (Z.eqb_spec (y mod 4) 0), (Z.eqb_spec (y mod 100) 0), (Z.eqb_spec (y mod 400) 0); cbn [andb orb negb]; try lia.
Qed.
Lemma year_days y : days_before_month y 12 = if leap y then 366 else 365.
Proof. cbv [days_before_month Z.of_nat Pos.of_succ_nat Pos.succ days_in_month]. cbn [Z.eqb Pos.eqb orb]. destruct (leap y); reflexivity. Qed.
Definition ok_date (p : Z * Z * Z) : Prop := let '(y, mo, d) := p in 1 <= y /\ 1 <= mo <= 12 /\ 1 <= d <= days_in_month y mo.
Definition ord (p : Z * Z * Z) : Z := let '(y, mo, d) := p in ordinal y mo d.
Lemma dim_pos y mo : 28 <= days_in_month y mo <= 31.
Proof. unfold days_in_month. repeat destruct (_ =? _); cbn [orb]; try lia; destruct (leap y); lia. Qed.
Lemma next_ok p : ok_date p -> ok_date (next_date p).
Proof.
  destruct p as [[y mo] d]. unfold ok_date, next_date. intros (A & B & C).
  pose proof (dim_pos y (mo + 1)). pose proof (dim_pos (y + 1) 1).
  destruct (Z.ltb_spec d (days_in_month y mo)); [repeat split; lia|]. destruct (Z.ltb_spec mo 12); repeat split; lia.
Qed.
Lemma next_ord p : ok_date p -> ord (next_date p) = ord p + 1.
Proof.
  destruct p as [[y mo] d]. unfold ok_date, next_date, ord, ordinal. intros (A & B & C).
  destruct (Z.ltb_spec d (days_in_month y mo)); [lia|]. assert (d = days_in_month y mo) by lia. subst d.
  destruct (Z.ltb_spec mo 12).
  - replace (Z.to_nat (mo + 1 - 1)) with (S (Z.to_nat (mo - 1))) by lia. cbn [days_before_month].
    rewrite Nat2Z.inj_succ, Z2Nat.id by lia. replace (Z.succ (mo - 1)) with mo by lia. lia.
  - assert (mo = 12) by lia. subst mo. replace (Z.to_nat (1 - 1)) with 0%nat by reflexivity. replace (Z.to_nat (12 - 1)) with 11%nat by reflexivity.
    rewrite year_step. pose proof (year_days y) as E. cbn [days_before_month] in E |- *.
    change (Z.of_nat 12) with 12 in E. lia.
Qed.
Lemma date_of_spec n : 0 <= n -> ok_date (date_of n) /\ ord (date_of n) = n + 1.
Proof.
  intros Hn. unfold date_of. pattern n. apply natlike_ind; [|clear n Hn|exact Hn].
  - cbn. repeat split; lia.
  - intros n Hn [A B].
    assert (E : Z.iter (Z.succ n) next_date (1, 1, 1) = next_date (Z.iter n next_date (1, 1, 1))).
    { destruct n as [|p|p]; [reflexivity| |lia]. cbn [Z.iter]. rewrite <- Pos2Z.inj_succ. cbn [Z.iter]. apply Pos.iter_succ. }
    rewrite E. split; [apply next_ok, A|rewrite next_ord by exact A; lia].
Qed.

(** ** rounding *)
Open Scope R_scope.
Definition tiny : R := bpow radix2 (-1074).
Lemma rnd_le x y : x <= y -> rnd x <= rnd y.
Proof. intros H. apply round_le; [apply FLT_exp_valid; reflexivity|apply valid_rnd_N|exact H]. Qed.
Lemma rnd_Z n : (Z.abs n <= 1000000)%Z -> rnd (IZR n) = IZR n.
Proof.
  intros H. apply round_generic; [apply valid_rnd_N|]. apply generic_format_FLT. exists (Float radix2 n 0); cbn.
  - unfold F2R; cbn. ring.
  - lia.
  - lia.
Qed.
Lemma tiny_small : 0 < tiny <= bpow radix2 (-60).
Proof. unfold tiny. split; [apply bpow_gt_0|apply bpow_le; lia]. Qed.
Lemma p60 : bpow radix2 (-60) = / 1152921504606846976. Proof. cbn. f_equal. Qed.
Lemma rnd_error x M : Rabs x <= M -> Rabs (rnd x - x) <= M * / 9007199254740992 + / 1152921504606846976.
Proof.
  intros H. destruct (error_N_FLT radix2 (-1074) 53 ltac:(lia) (fun z => negb (Z.even z)) x) as (eps & eta & He & Ht & _ & E).
  unfold rnd. change ZnearestE with (Znearest (fun z => negb (Z.even z))). rewrite E. replace (x * (1 + eps) + eta - x) with (x * eps + eta) by ring.
  eapply Rle_trans; [apply Rabs_triang|]. rewrite Rabs_mult.
  assert (A : / 2 * bpow radix2 (- (53) + 1) = / 9007199254740992). { cbn. lra. }
  assert (B : / 2 * bpow radix2 (-1074) <= / 1152921504606846976). { pose proof tiny_small as T. unfold tiny in T. rewrite <- p60. lra. }
  rewrite A in He. apply Rplus_le_compat; [|lra].
  pose proof (Rabs_pos x). pose proof (Rabs_pos eps). apply Rmult_le_compat; assumption.
Qed.
Lemma near_int r n : Rabs (r - IZR n) < / 2 -> ZnearestE r = n.
Proof. intros H. apply Znearest_imp. exact H. Qed.
(** a second and its microseconds, added in floating point, are recovered *)
Lemma second_back s us : (0 <= s <= 59)%Z -> (0 <= us <= 999999)%Z ->
  let x := rnd (IZR s + rnd (IZR us / 1000000)) in whole_of x = s /\ micro_of x = us /\ IZR s <= x < IZR s + 1.
Proof.
  intros Hs Hu x.
  assert (Us : 0 <= IZR us / 1000000 <= 999999 / 1000000). { assert (0 <= IZR us <= 999999) by (split; apply IZR_le; lia). lra. }
  assert (Ss : 0 <= IZR s <= 59) by (split; apply IZR_le; lia).
  set (f := rnd (IZR us / 1000000)) in *.
  assert (F0 : 0 <= f). { unfold f. rewrite <- (rnd_Z 0) by lia. apply rnd_le. lra. }
  assert (F1 : Rabs (f - IZR us / 1000000) <= 1 * / 9007199254740992 + / 1152921504606846976). { apply rnd_error. rewrite Rabs_pos_eq; lra. }
  assert (X1 : Rabs (x - (IZR s + f)) <= 61 * / 9007199254740992 + / 1152921504606846976).
  { apply rnd_error. apply Rabs_le_inv in F1. rewrite Rabs_pos_eq; lra. }
  assert (X0 : IZR s <= x). { unfold x. rewrite <- (rnd_Z s) at 1 by lia. apply rnd_le. lra. }
  apply Rabs_le_inv in F1. apply Rabs_le_inv in X1.
  assert (XB : IZR s <= x < IZR s + 1) by lra.
  assert (FL : Zfloor x = s) by (apply Zfloor_imp; rewrite plus_IZR; exact XB).
  split; [|split; [|exact XB]].
  - unfold whole_of. rewrite Ztrunc_floor by lra. exact FL.
  - unfold micro_of. rewrite FL. apply near_int.
    assert (R1 : Rabs (rnd ((x - IZR s) * 1000000) - (x - IZR s) * 1000000) <= 1000000 * / 9007199254740992 + / 1152921504606846976).
    { apply rnd_error. rewrite Rabs_pos_eq; lra. }
    apply Rabs_le_inv in R1. apply Rabs_lt. lra.
Qed.
(** the microseconds of any number of seconds *)
Lemma micro_near x : 0 <= x -> (0 <= micro_of x <= 1000000)%Z /\ Rabs (IZR (whole_of x) * 1000000 + IZR (micro_of x) - x * 1000000) <= / 2 + / 8000000000.
Proof.
  intros H. unfold whole_of. rewrite Ztrunc_floor by exact H. unfold micro_of.
  pose proof (Zfloor_lb x) as L. pose proof (Zfloor_ub x) as U. set (n := IZR (Zfloor x)) in *.
  set (r := rnd ((x - n) * 1000000)).
  assert (R1 : Rabs (r - (x - n) * 1000000) <= 1000000 * / 9007199254740992 + / 1152921504606846976).
  { apply rnd_error. rewrite Rabs_pos_eq; lra. }
  assert (R0 : 0 <= r). { unfold r. rewrite <- (rnd_Z 0) by lia. apply rnd_le. lra. }
  assert (R2 : r <= 1000000). { apply Rle_trans with (rnd (IZR 1000000)); [apply rnd_le; lra|rewrite rnd_Z by lia; lra]. }
  pose proof (Znearest_half (fun z => negb (Z.even z)) r) as Hh. fold ZnearestE in Hh.
  split.
  - apply Rabs_le_inv in Hh. change (Znearest (fun z => negb (Z.even z)) r) with (ZnearestE r) in Hh. split.
    + apply Z.lt_succ_r. apply lt_IZR. unfold Z.succ. rewrite plus_IZR. lra.
    + apply Z.lt_succ_r. apply lt_IZR. unfold Z.succ. rewrite plus_IZR. lra.
  - apply Rabs_le_inv in Hh. change (Znearest (fun z => negb (Z.even z)) r) with (ZnearestE r) in Hh. apply Rabs_le_inv in R1. apply Rabs_le. lra.
Qed.
