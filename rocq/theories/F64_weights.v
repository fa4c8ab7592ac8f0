(** * The estimators with weights in double precision: relative error *)
From Coq Require Import ZArith List Bool Reals Lia Lra Psatz Permutation.
From Flocq Require Import Core Relative.
From Verif Require Import Base Num XR RList Binning_model BValue_model Openquake_model F64 Spec_F64 F64_proofs F64_test F64_select F64_fmd F64_acc F64_est.
Import ListNotations.
Open Scope R_scope.

(** the weighted mean of the excesses in exact arithmetic; an event is an index and a weight *)
Definition weight_sum (ps : list (Z * R)) : R := Rsum (map snd ps).
Definition weighted_excess (delta : R) (kc : Z) (ps : list (Z * R)) : R := Rsum (map (fun p => snd p * (IZR (fst p - kc) * delta)) ps) / weight_sum ps.
(** weights: zero, or between 10^-6 and 10^6 *)
Definition usual_weight (v : R) : Prop := v = 0 \/ / 1000000 <= v <= 1000000.

(** ** sums of a wider range than in F64_acc *)
Definition wide (x : R) : Prop := x = 0 \/ / 1000000000000 <= x <= 1000000000.
Lemma total_wide t xs : leaves t = map Fin xs -> (forall x, In x xs -> wide x) -> INR (length xs) <= 1099511627776 ->
  exists s, total t = Fin s /\ near (INR (length xs) * r1) s (Rsum xs).
Proof.
  pose proof r1_val as [R0 R1]. unfold wide.
  assert (G : forall t xs, leaves t = map Fin xs -> (forall x, In x xs -> x = 0 \/ / 1000000000000 <= x <= 1000000000) -> INR (length xs) <= 1099511627776 ->
    exists s, total t = Fin s /\ near ((INR (length xs) - 1) * r1) s (Rsum xs) /\ (Rsum xs = 0 \/ / 1000000000000 <= Rsum xs) /\ Rsum xs <= 1000000000 * INR (length xs) /\ 1 <= INR (length xs)).
  { clear t xs. induction t as [x|t1 IH1 t2 IH2]; intros xs E Hx Hn.
    - destruct xs as [|y [|]]; try discriminate. cbn [leaves map] in E. injection E as ->. exists y. split; [reflexivity|].
      unfold Rsum. cbn [fold_right length INR]. rewrite Rplus_0_r. specialize (Hx y (or_introl eq_refl)).
      split; [replace ((1 - 1) * r1) with 0 by ring; apply near_refl; [destruct Hx; lra|lra]|]. destruct Hx; lra.
    - cbn [leaves] in E. symmetry in E. apply map_eq_app in E. destruct E as (x1 & x2 & -> & E1 & E2). rewrite app_length, plus_INR in *.
      pose proof (pos_INR (length x1)). pose proof (pos_INR (length x2)).
      destruct (IH1 x1 (eq_sym E1)) as (s1 & T1 & N1 & Z1 & M1 & O1); [intros x Hi; apply Hx, in_or_app; auto|lra|].
      destruct (IH2 x2 (eq_sym E2)) as (s2 & T2 & N2 & Z2 & M2 & O2); [intros x Hi; apply Hx, in_or_app; auto|lra|].
      cbn [total]. rewrite T1, T2. cbn [xadd fix64]. rewrite Rsum_app.
      set (n1 := INR (length x1)) in *. set (n2 := INR (length x2)) in *.
      assert (P1 : 0 <= Rsum x1) by (destruct Z1; lra). assert (P2 : 0 <= Rsum x2) by (destruct Z2; lra).
      assert (N : near ((n1 + n2 - 2) * r1) (s1 + s2) (Rsum x1 + Rsum x2)).
      { apply near_plus; [apply near_le with ((n1 - 1) * r1)|apply near_le with ((n2 - 1) * r1)]; try assumption; apply Rmult_le_compat_r; lra. }
      assert (Ee : 0 <= (n1 + n2 - 2) * r1 <= 1 / 100).
      { split; [apply Rmult_le_pos; lra|]. apply Rle_trans with (1099511627776 * r1); [apply Rmult_le_compat_r; lra|]. unfold r1, u. lra. }
      pose proof (err_of_near _ _ _ (Rplus_le_le_0_compat _ _ P1 P2) Ee N) as Er. apply Rabs_le_inv in Er.
      assert (Er2 : (Rsum x1 + Rsum x2) * ((n1 + n2 - 2) * r1 * 1.02) <= (Rsum x1 + Rsum x2) * (1/2)) by (apply Rmult_le_compat_l; lra).
      rewrite fl_fin.
      2:{ apply Rabs_le. unfold big. lra. }
      eexists. split; [reflexivity|]. split; [|split; [destruct Z1, Z2; [left|right|right|right]; lra|split; lra]].
      replace ((n1 + n2 - 1) * r1) with (r1 + (n1 + n2 - 2) * r1) by ring. apply near_trans with (s1 + s2); [|exact N].
      apply near_rnd0. unfold h. destruct Z1, Z2; [left|right|right|right]; lra. }
  intros E Hx Hn. destruct (G t xs E Hx Hn) as (s & T & N & Z & _ & O). exists s. split; [exact T|]. apply near_le with ((INR (length xs) - 1) * r1); [destruct Z; lra| |exact N].
  apply Rmult_le_compat_r; lra.
Qed.
Lemma sum_wide (L : libm) xs : sums_in_some_order L -> xs <> [] -> (forall x, In x xs -> wide x) -> INR (length xs) <= 1099511627776 ->
  exists s, l_sum L (map Fin xs) = Fin s /\ near (INR (length xs) * r1) s (Rsum xs).
Proof.
  intros (_ & HS) Hne Hx Hn. destruct (HS (map Fin xs)) as (t & P & E); [destruct xs; [congruence|discriminate]|].
  apply Permutation_map_inv in P. destruct P as (xs' & El & P). rewrite E.
  assert (Len : length xs' = length xs) by (symmetry; apply Permutation_length; exact P).
  destruct (total_wide t xs' El) as (s & T & N).
  - intros x Hi. apply Hx. eapply Permutation_in; [apply Permutation_sym; exact P|exact Hi].
  - rewrite Len. exact Hn.
  - exists s. split; [exact T|]. rewrite Len in N. rewrite (Rsum_perm xs xs' P). exact N.
Qed.

Section Weighted.
  Context (L : libm) (j : Z) (d : nat) (W : usual_width j d) (HS : sums_in_some_order L) (HL : log_accurate L).
  #[local] Instance FI9 : Num xr := F64 L.
  Let w := widthR j d.
  Let Wb : 1 / 10000 <= w <= 10 := W_bounds j d W.
  Let eL : R := 402 * r1 / w.
  (** one product *)
  Lemma product_near x v y e : 0 <= y -> 0 <= e -> near e x y -> (x = 0 \/ / 100000 <= x <= 300) -> usual_weight v ->
    exists z, nmul (Fin x) (Fin v) = Fin z /\ near (e + r1) z (v * y) /\ wide z.
  Proof.
    intros Hy He N Hx Hv. pose proof r1_val as [R0 R1]. unfold FI9.
    assert (V : 0 <= v <= 1000000) by (destruct Hv; lra). assert (X : 0 <= x <= 300) by (destruct Hx; lra).
    assert (P : x * v = 0 \/ / 100000000000 <= x * v <= 300000000).
    { destruct Hx as [->|Hx]; [left; ring|]. destruct Hv as [->|Hv]; [left; ring|]. right. split.
      - apply Rle_trans with (/ 100000 * / 1000000); [lra|apply Rmult_le_compat; lra].
      - apply Rle_trans with (300 * 1000000); [apply Rmult_le_compat; lra|lra]. }
    rewrite f_mul by (unfold big; apply Rabs_le; destruct P; lra).
    eexists. split; [reflexivity|].
    assert (NR : near r1 (rnd (x * v)) (x * v)) by (apply near_rnd0; unfold h; destruct P; [left|right]; lra).
    split.
    - rewrite (Rmult_comm v y). replace (e + r1) with (r1 + (e + 0)) by ring. eapply near_trans; [exact NR|]. apply near_mult; [exact Hy|lra|exact N|apply near_refl; lra].
    - destruct P as [->|P]; [left; apply rnd_0|]. right. bnd NR BR (lra) (unfold r1, u; lra). lra.
  Qed.
  Lemma product_collect (f : xr -> xr) (g : Z -> R) e ps : 0 <= e -> (forall p, In p ps -> 0 <= g (fst p) /\ usual_weight (snd p) /\
      exists x, f (Fin (decimal j d (fst p))) = Fin x /\ near e x (g (fst p)) /\ (x = 0 \/ / 100000 <= x <= 300)) ->
    exists zs, map2 nmul (map f (at_index j d (map fst ps))) (map (fun p => Fin (snd p)) ps) = map Fin zs /\
      Forall2 (near (e + r1)) zs (map (fun p => snd p * g (fst p)) ps) /\ (forall z, In z zs -> wide z).
  Proof.
    intros He. induction ps as [|p ps IH]; intros H; [exists []; split; [reflexivity|split; [constructor|intros _ []]]|].
    destruct (H p (or_introl eq_refl)) as (Gp & Vp & x & E & N & X). destruct IH as (zs & E2 & N2 & P2); [intros; apply H; right; assumption|].
    destruct (product_near x (snd p) (g (fst p)) e Gp He N X Vp) as (z & Ez & Nz & Pz).
    exists (z :: zs). unfold at_index in *. cbn [map map2]. rewrite E, Ez, E2. split; [reflexivity|]. split; [constructor; assumption|]. intros y [<-|Hy]; auto.
  Qed.
  (** np.average *)
  Lemma average_near (f : xr -> xr) (g : Z -> R) e ps : 0 <= e <= / 10000 -> ps <> [] -> INR (length ps) <= 1099511627776 ->
    (forall p, In p ps -> 0 <= g (fst p) <= 250 /\ usual_weight (snd p) /\
      exists x, f (Fin (decimal j d (fst p))) = Fin x /\ near e x (g (fst p)) /\ (x = 0 \/ / 100000 <= x <= 300)) ->
    0 < weight_sum ps -> let A := Rsum (map (fun p => snd p * g (fst p)) ps) / weight_sum ps in / 100000000000000000 <= A ->
    A <= 250 /\ exists a, np_average (map f (at_index j d (map fst ps))) (Some (map (fun p => Fin (snd p)) ps)) = Ok (Fin a) /\
      near (e + (2 * INR (length ps) + 2) * r1) a A.
  Proof.
    intros He Hne Hn H Hw A HA. pose proof r1_val as [R0 R1]. set (n := INR (length ps)) in *.
    assert (N1 : 1 <= n) by (unfold n; change 1 with (INR 1); apply le_INR; destruct ps; [congruence|cbn; lia]).
    assert (A1 : A <= 250).
    { unfold A, weight_sum in *. apply Rmult_le_reg_r with (Rsum (map snd ps)); [exact Hw|]. unfold Rdiv. rewrite Rmult_assoc, Rinv_l, Rmult_1_r by lra. clear - H.
      induction ps as [|p ps IH]; [unfold Rsum; cbn; lra|]. cbn [map]. rewrite !Rsum_cons. specialize (IH (fun q Hq => H q (or_intror Hq))). destruct (H p (or_introl eq_refl)) as (Hg & Hv & _).
      assert (0 <= snd p) by (destruct Hv; lra). assert (snd p * g (fst p) <= snd p * 250) by (apply Rmult_le_compat_l; lra). lra. }
    split; [exact A1|].
    destruct (product_collect f g e ps ltac:(lra)) as (zs & Ez & Fz & Pz). { intros p Hp. destruct (H p Hp) as (Hg & Hv & Hx). repeat split; try assumption; lra. }
    set (ys := map (fun p => snd p * g (fst p)) ps) in *.
    assert (Lz : length zs = length ps) by (transitivity (length ys); [clear -Fz; induction Fz; cbn; congruence|apply map_length]).
    destruct (sum_wide L zs HS ltac:(intros ->; destruct ps; [congruence|discriminate]) Pz ltac:(rewrite Lz; exact Hn)) as (s1 & E1 & S1).
    rewrite Lz in S1. fold n in S1.
    assert (S2 : near (e + r1) (Rsum zs) (Rsum ys)). { clear - Fz. induction Fz as [|x y xs ys H F IH]; [unfold Rsum; cbn; unfold near; lra|]. rewrite !Rsum_cons. apply near_plus; assumption. }
    pose proof (near_trans _ _ _ _ _ S1 S2) as Ns. 
    destruct (sum_wide L (map snd ps) HS) as (s2 & E2 & Nw).
    { destruct ps; [congruence|discriminate]. }
    { intros v Hv. apply in_map_iff in Hv. destruct Hv as (p & <- & Hp). destruct (H p Hp) as (_ & V & _). unfold wide. destruct V as [V|V]; [left; exact V|right; lra]. }
    { rewrite map_length. exact Hn. }
    rewrite map_length in Nw. fold n in Nw. rewrite map_map in E2. fold (weight_sum ps) in Nw.
    assert (Ew : 0 <= n * r1 <= / 1000). { split; [apply Rmult_le_pos; lra|]. apply Rle_trans with (1099511627776 * r1); [apply Rmult_le_compat_r; lra|unfold r1, u; lra]. }
    bnd Nw Bw (lra) (lra).
    unfold np_average. rewrite Ez. change (@nsum xr FI9 (map (fun p => Fin (snd p)) ps)) with (l_sum L (map (fun p => Fin (snd p)) ps)). rewrite E2.
    assert (Q : neqb (Fin s2) zero = false). { unfold zero, FI9. rewrite f_ofZ by (cbn; lia). change (req s2 0 = false). apply req_false. lra. }
    rewrite Q. change (@nsum xr FI9 (map Fin zs)) with (l_sum L (map Fin zs)). rewrite E1.
    assert (Yp : 0 < Rsum ys). { apply Rmult_lt_reg_r with (/ weight_sum ps); [apply Rinv_0_lt_compat; lra|]. rewrite Rmult_0_l. fold (Rsum ys / weight_sum ps). fold A. lra. }
    pose proof (near_div _ _ _ _ _ _ (Rlt_le _ _ Yp) Hw Ns Nw) as Nd. fold A in Nd.
    assert (Ee : 0 <= n * r1 + (e + r1) + n * r1 <= / 100) by (unfold r1, u in *; lra).
    bnd Nd Bd (lra) (lra).
    unfold FI9. rewrite f_div; [|lra|unfold big; rewrite Rabs_pos_eq; lra].
    eexists. split; [reflexivity|]. replace (e + (2 * n + 2) * r1) with (r1 + (n * r1 + (e + r1) + n * r1)) by ring.
    eapply near_trans; [apply near_rnd; unfold h; lra|exact Nd].
  Qed.
  Lemma mle_weighted ps kc : (forall p, In p ps -> moderate j d (fst p) /\ (kc <= fst p)%Z /\ usual_weight (snd p)) -> moderate j d kc -> ps <> [] ->
    (Z.of_nat (length ps) <= 2 ^ 40)%Z -> 0 < weight_sum ps -> w / 1099511627776 <= weighted_excess w kc ps ->
    exists b, mle_estimator (at_index j d (map fst ps)) (Fin (decimal j d kc)) (width j d) (Some (map (fun p => Fin (snd p)) ps)) = Ok (Fin b) /\
      Rabs (b - exact_classic w (weighted_excess w kc ps)) <= exact_classic w (weighted_excess w kc ps) * allowed_error w (2 * length ps).
  Proof.
    intros Hp Hc Hne Hn Hw HA. pose proof r1_val as [R0 R1]. pose proof (w_inv j d W) as Wi. fold w in Wi. pose proof (eL_bounds j d W) as EL. fold w in EL. fold eL in EL.
    assert (Hn2 : INR (length ps) <= 1099511627776) by (rewrite INR_IZR_INZ; apply IZR_le; exact Hn).
    set (n := INR (length ps)) in *. assert (Pn : 0 <= n) by apply pos_INR.
    assert (AA : weighted_excess w kc ps = Rsum (map (fun p => snd p * (IZR (fst p - kc) * w)) ps) / weight_sum ps) by reflexivity.
    destruct (average_near (fun m => nsub m (Fin (decimal j d kc))) (fun k => IZR (k - kc) * w) eL ps) as (A1 & a & Ea & Na).
    - split; [lra|]. lra.
    - exact Hne.
    - exact Hn2.
    - intros p Hi. destruct (Hp p Hi) as (M & LE & V). pose proof (diff_range j d W (fst p) kc M Hc LE) as Dr. fold w in Dr. split; [lra|]. split; [exact V|].
      destruct (diff_near L j d W (fst p) kc M Hc LE) as (x & E & N & B). exists x. split; [exact E|]. split; [exact N|]. destruct B; [left; assumption|right; lra].
    - exact Hw.
    - rewrite <- AA. eapply Rle_trans; [|exact HA]. lra.
    - rewrite <- AA in *. set (A := weighted_excess w kc ps) in *.
      assert (A2 : A <= 201).
      { rewrite AA. unfold weight_sum in *. apply Rmult_le_reg_r with (Rsum (map snd ps)); [exact Hw|]. unfold Rdiv. rewrite Rmult_assoc, Rinv_l, Rmult_1_r by lra. clear - Hp Hc Wb W.
        induction ps as [|p ps IH]; [unfold Rsum; cbn; lra|]. cbn [map]. rewrite !Rsum_cons. specialize (IH (fun q Hq => Hp q (or_intror Hq))). destruct (Hp p (or_introl eq_refl)) as (M & LE & V).
        pose proof (diff_range j d W (fst p) kc M Hc LE) as Dr. fold w in Dr.
        assert (0 <= snd p) by (destruct V; lra). assert (snd p * (IZR (fst p - kc) * w) <= snd p * 201) by (apply Rmult_le_compat_l; lra). lra. }
      fold n in Na. set (e := eL + (2 * n + 2) * r1) in *.
      assert (Ee : 0 <= e <= / 1000).
      { unfold e. split; [assert (0 <= (2 * n + 2) * r1) by (apply Rmult_le_pos; lra); lra|]. assert ((2 * n + 2) * r1 <= 2199023255554 * r1) by (apply Rmult_le_compat_r; lra). unfold r1, u in *. lra. }
      destruct (classic_near L j d W HL e a A 1099511627776 (proj1 Ee) ltac:(lra) (proj2 Ee) (conj HA A2) Na) as (b & Eb & Nb).
      exists b. split.
      + unfold mle_estimator. rewrite Ea. cbn [rbind].
        assert (WP : nltb zero (dec_val (width j d)) = true) by exact (width_positive L j d W). rewrite WP. unfold F64_est.FI8 in Eb. unfold FI9. rewrite Eb. reflexivity.
      + fold w in Nb. fold (exact_classic w A) in Nb.
        assert (P : 0 < w / 1099511627776) by lra.
        assert (Q : 0 < w / A) by (apply Rdiv_lt_0_compat; lra).
        assert (T : 0 < exact_classic w A).
        { unfold exact_classic. apply Rdiv_lt_0_compat; [apply Rdiv_lt_0_compat; [rewrite <- ln_1; apply ln_increasing; lra|lra]|rewrite <- ln_1; apply ln_increasing; lra]. }
        set (E := e + (216 / w + 17) * r1) in *.
        assert (EE : E = (2 * n + 618 / w + 19) * r1) by (unfold E, e, eL; field; lra).
        assert (E1 : E <= 1 / 100). { unfold E, Rdiv in *. assert (r1 * (/ w) <= r1 * 10000) by (apply Rmult_le_compat_l; lra). unfold r1, u in *. lra. }
        assert (E0 : 0 <= E). { unfold E, Rdiv. assert (0 <= r1 * / w) by (apply Rmult_le_pos; lra). lra. }
        eapply Rle_trans; [apply (err_of_near E); [lra|lra|exact Nb]|]. apply Rmult_le_compat_l; [lra|]. rewrite EE. unfold allowed_error. rewrite mult_INR. fold n. change (INR 2) with (1 + 1).
        replace (((1 + 1) * n + 620 / w + 20) / 4503599627370496) with ((2 * n + 620 / w + 20) * (2 * u)) by (unfold u; field; lra).
        assert (0 <= / w) by lra. unfold Rdiv. rewrite Rmult_assoc. apply Rmult_le_compat; [lra|lra|lra|unfold r1, u; lra].
  Qed.
  Lemma utsu_weighted ps kc : (forall p, In p ps -> moderate j d (fst p) /\ (kc <= fst p)%Z /\ usual_weight (snd p)) -> moderate j d kc -> ps <> [] ->
    (Z.of_nat (length ps) <= 2 ^ 40)%Z -> 0 < weight_sum ps ->
    exists b, utsu_estimator (at_index j d (map fst ps)) (Fin (decimal j d kc)) (width j d) (Some (map (fun p => Fin (snd p)) ps)) = Ok (Fin b) /\
      Rabs (b - exact_utsu w (weighted_excess w kc ps)) <= exact_utsu w (weighted_excess w kc ps) * allowed_error w (2 * length ps).
  Proof.
    intros Hp Hc Hne Hn Hw. pose proof r1_val as [R0 R1]. pose proof (w_inv j d W) as Wi. fold w in Wi. pose proof (eL_bounds j d W) as EL. fold w in EL. fold eL in EL.
    assert (Hn2 : INR (length ps) <= 1099511627776) by (rewrite INR_IZR_INZ; apply IZR_le; exact Hn).
    set (n := INR (length ps)) in *. assert (Pn : 0 <= n) by apply pos_INR.
    assert (V0 : forall p, In p ps -> 0 <= snd p) by (intros p Hi; destruct (Hp p Hi) as (_ & _ & V); destruct V; lra).
    assert (AA : Rsum (map (fun p => snd p * (IZR (fst p - kc) * w + w / 2)) ps) / weight_sum ps = weighted_excess w kc ps + w / 2).
    { unfold weighted_excess. assert (S : Rsum (map (fun p => snd p * (IZR (fst p - kc) * w + w / 2)) ps) = Rsum (map (fun p => snd p * (IZR (fst p - kc) * w)) ps) + w / 2 * weight_sum ps).
      { unfold weight_sum. clear. induction ps as [|p ps IH]; [unfold Rsum; cbn; lra|]. cbn [map]. rewrite !Rsum_cons, IH. ring. }
      rewrite S. field. lra. }
    assert (X0 : 0 <= weighted_excess w kc ps).
    { unfold weighted_excess, Rdiv. apply Rmult_le_pos; [|left; apply Rinv_0_lt_compat; exact Hw]. clear - Hp Hc V0 Wb W.
      induction ps as [|p ps IH]; [unfold Rsum; cbn; lra|]. cbn [map]. rewrite Rsum_cons. destruct (Hp p (or_introl eq_refl)) as (M & LE & _). pose proof (diff_range j d W (fst p) kc M Hc LE) as Dr. fold w in Dr.
      assert (0 <= snd p * (IZR (fst p - kc) * w)) by (apply Rmult_le_pos; [apply V0; left; reflexivity|lra]).
      assert (0 <= Rsum (map (fun p => snd p * (IZR (fst p - kc) * w)) ps)) by (apply IH; [intros q Hq; apply Hp; right; exact Hq|intros q Hq; apply V0; right; exact Hq]). lra. }
    destruct (average_near (fun m => nadd (nsub m (Fin (decimal j d kc))) (ndiv (dec_val (width j d)) two)) (fun k => IZR (k - kc) * w + w / 2) (eL + r1) ps) as (A1 & a & Ea & Na).
    - split; [lra|]. unfold r1, u in *. lra.
    - exact Hne.
    - exact Hn2.
    - intros p Hi. destruct (Hp p Hi) as (M & LE & V). pose proof (diff_range j d W (fst p) kc M Hc LE) as Dr. fold w in Dr. split; [lra|]. split; [exact V|].
      destruct (utsu_leaf L j d W (fst p) kc M Hc LE) as (x & E & N & B). exists x. split; [exact E|]. split; [exact N|]. right.
      fold w in N. fold eL in N. bnd N BN (lra) (unfold r1, u in *; lra). lra.
    - exact Hw.
    - rewrite AA. lra.
    - rewrite AA in *. set (A := weighted_excess w kc ps) in *.
      fold n in Na. set (e := eL + r1 + (2 * n + 2) * r1) in *.
      assert (Ee : 0 <= e <= / 1000).
      { unfold e. split; [assert (0 <= (2 * n + 2) * r1) by (apply Rmult_le_pos; lra); lra|]. assert ((2 * n + 2) * r1 <= 2199023255554 * r1) by (apply Rmult_le_compat_r; lra). unfold r1, u in *. lra. }
      assert (HA : w / 2 <= A + w / 2 <= 250) by lra.
      destruct (utsu_near L j d W HL e a _ (proj1 Ee) (proj2 Ee) HA Na) as (b & Eb & Nb).
      exists b. split.
      + unfold utsu_estimator. rewrite Ea. cbn [rbind]. unfold F64_est.FI8 in Eb. unfold FI9. rewrite Eb. reflexivity.
      + unfold exact_utsu.
        assert (T : 0 < 1 / (A + w / 2) / ln 10). { apply Rdiv_lt_0_compat; [apply Rdiv_lt_0_compat; lra|rewrite <- ln_1; apply ln_increasing; lra]. }
        set (E := e + 6 * r1) in *.
        assert (EE : E = (2 * n + 402 / w + 9) * r1) by (unfold E, e, eL; field; lra).
        assert (E1 : E <= 1 / 100) by (unfold E; unfold r1, u in *; lra).
        assert (E0 : 0 <= E) by (unfold E; lra).
        eapply Rle_trans; [apply (err_of_near E); [lra|lra|exact Nb]|]. apply Rmult_le_compat_l; [lra|]. rewrite EE. unfold allowed_error. rewrite mult_INR. fold n. change (INR 2) with (1 + 1).
        replace (((1 + 1) * n + 620 / w + 20) / 4503599627370496) with ((2 * n + 620 / w + 20) * (2 * u)) by (unfold u; field; lra).
        assert (0 <= / w) by lra. unfold Rdiv. rewrite Rmult_assoc. apply Rmult_le_compat; [lra|lra|lra|unfold r1, u; lra].
  Qed.
End Weighted.
