(** * Comparisons of binned magnitudes in double precision *)
From Coq Require Import ZArith List Bool Reals Lia Lra Psatz.
From Flocq Require Import Core.
From Verif Require Import Base Num XR RList Binning_model Openquake_model F64 Spec_F64 F64_proofs F64_test.
Import ListNotations.
Open Scope R_scope.

Section Select.
  Context (L : libm) (j : Z) (d : nat) (W : usual_width j d).
  #[local] Instance FI6 : Num xr := F64 L.
  Let w := widthR j d.
  Definition moderate (K : Z) : Prop := Rabs (IZR K * w) <= 100.
  Lemma dec_near K : moderate K -> Rabs (decimal j d K - IZR K * w) <= / 10000000000000.
  Proof. intros H. unfold moderate in H. pose proof (dec_err j d K) as E. fold w in E. unfold u, h in E. lra. Qed.
  Lemma dec_bound K : moderate K -> Rabs (decimal j d K) <= 101.
  Proof. intros H. pose proof (dec_near K H) as E. unfold moderate in H. apply Rabs_le_inv in E, H. apply Rabs_le. lra. Qed.
  Lemma half_width : exists q, ndiv (dec_val (width j d)) two = Fin q /\ Rabs (q - w / 2) <= / 100000000000000.
  Proof.
    pose proof (W_bounds j d W) as B. fold w in B. unfold two, FI6. rewrite f_dec, f_ofZ by (exact W || (cbn; lia)). fold w.
    pose proof (rnd_err_le w 10 ltac:(rewrite Rabs_pos_eq; lra)) as E1. apply Rabs_le_inv in E1. unfold u, h in E1.
    rewrite f_div by (lra || (unfold big; apply Rabs_le; lra)). eexists. split; [reflexivity|].
    pose proof (rnd_err_le (rnd w / 2) 6 ltac:(apply Rabs_le; lra)) as E2. apply Rabs_le_inv in E2. unfold u, h in E2. apply Rabs_le. lra.
  Qed.
  (** the threshold c - delta/2 *)
  Lemma threshold K : moderate K -> exists q, nsub (Fin (decimal j d K)) (ndiv (dec_val (width j d)) two) = Fin q /\
    Rabs (q - (IZR K * w - w / 2)) <= / 1000000000000.
  Proof.
    intros H. destruct half_width as (q0 & -> & E). pose proof (dec_near K H) as N. pose proof (W_bounds j d W) as B. fold w in B.
    unfold moderate in H. apply Rabs_le_inv in E, N, H. unfold FI6. rewrite f_sub by (unfold big; apply Rabs_le; lra). eexists. split; [reflexivity|].
    pose proof (rnd_err_le (decimal j d K - q0) 110 ltac:(apply Rabs_le; lra)) as E2. apply Rabs_le_inv in E2. unfold u, h in E2. apply Rabs_le. lra.
  Qed.
  Lemma index_cmp q x K K' : Rabs (q - (IZR K * w - w / 2)) <= / 1000000000000 -> Rabs (x - IZR K' * w) <= / 1000000000000 ->
    xleb (Fin q) (Fin x) = (K <=? K')%Z.
  Proof.
    intros Q X. pose proof (W_bounds j d W) as B. fold w in B. apply Rabs_le_inv in Q, X. cbn [xleb]. destruct (Z.leb_spec K K') as [A|A].
    - apply rle_true. apply IZR_le in A. nra.
    - apply rle_false. assert (A' : (K' + 1 <= K)%Z) by lia. apply IZR_le in A'. rewrite plus_IZR in A'. nra.
  Qed.
  (** m >= mc - delta/2 *)
  Lemma select K K' : moderate K -> moderate K' -> 
    nleb (nsub (Fin (decimal j d K)) (ndiv (dec_val (width j d)) two)) (Fin (decimal j d K')) = (K <=? K')%Z.
  Proof.
    intros H H'. destruct (threshold K H) as (q & -> & E). apply index_cmp; [exact E|]. pose proof (dec_near K' H'). lra.
  Qed.
  (** differences of magnitudes *)
  Lemma difference K K' : moderate K -> moderate K' -> exists s, nsub (Fin (decimal j d K')) (Fin (decimal j d K)) = Fin s /\
    Rabs (s - IZR (K' - K) * w) <= / 1000000000000 /\ Rabs s <= 201.
  Proof.
    intros H H'. pose proof (dec_near K H) as N. pose proof (dec_near K' H') as N'. unfold moderate in *. apply Rabs_le_inv in N, N', H, H'.
    unfold FI6. rewrite f_sub by (unfold big; apply Rabs_le; lra). eexists. split; [reflexivity|].
    pose proof (rnd_err_le (decimal j d K' - decimal j d K) 201 ltac:(apply Rabs_le; lra)) as E. apply Rabs_le_inv in E. unfold u, h in E.
    rewrite minus_IZR. split; apply Rabs_le; lra.
  Qed.
  Lemma select_diff c K K' : moderate c -> moderate K -> moderate K' ->
    nleb (nsub (Fin (decimal j d c)) (ndiv (dec_val (width j d)) two)) (nsub (Fin (decimal j d K')) (Fin (decimal j d K))) = (c <=? K' - K)%Z.
  Proof.
    intros C H H'. destruct (threshold c C) as (q & -> & E). destruct (difference K K' H H') as (s & -> & S & _). apply index_cmp; assumption.
  Qed.
  Lemma bin_diff K K' : moderate K -> moderate K' ->
    bin_elem (width j d) (nsub (Fin (decimal j d K')) (Fin (decimal j d K))) = Fin (decimal j d (K' - K)).
  Proof.
    intros H H'. pose proof (W_bounds j d W) as B. fold w in B. destruct (difference K K' H H') as (s & -> & S & T). apply (bin_near L j d W); [lra|]. fold w. lra.
  Qed.
  Lemma width_positive : nltb zero (dec_val (width j d)) = true.
  Proof.
    pose proof (D_bounds j d W). unfold zero, FI6. rewrite f_dec, f_ofZ by (exact W || (cbn; lia)). apply rlt_true. lra.
  Qed.
  Lemma width_is_decimal : dec_val (width j d) = Fin (decimal j d 1).
  Proof. unfold FI6. rewrite f_dec by exact W. f_equal. unfold decimal. rewrite Rmult_1_l. reflexivity. Qed.
End Select.
