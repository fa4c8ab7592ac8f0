(** * C197: the p-value of b_significant_1D *)
From Coq Require Import ZArith List Bool Reals Lia Lra.
From Verif Require Import Base Num XR RList SortLib Binning_model BinTest_proofs BValue_model BValue_run BValue_proofs BValue_real AValue_model BSig_model
  Spec_BSig Props_BSig Moran_proofs.
Import ListNotations.
Open Scope R_scope.

(** a distribution function of normal distributions: Phi of the standardised value *)
Definition standard_cdf (Phi : R -> R) (cdf : xr -> xr -> xr -> xr) : Prop :=
  forall mu s x, 0 < s -> cdf (Fin mu) (Fin s) (Fin x) = Fin (Phi ((x - mu) / s)).

(** the returned p-value is one minus the distribution function, with the returned mean and
    standard deviation, at the returned autocorrelation - or all four are NaN because there
    are too few events *)
Theorem C197_p_value : forall T (N : Num T) srt cdf m wn kw draws (mags : list T) mc delta times n min_num x cons p mac mu std,
  b_significant_1D srt cdf m wn kw draws mags mc delta times n min_num x cons = Ok (p, mac, mu, std) ->
  p = nsub one (cdf mu std mac) \/ (p, mac, mu, std) = (nnan, nnan, nnan, nnan).
Proof.
  intros T N srt cdf m wn kw draws mags mc delta times n min_num x cons p mac mu std. unfold b_significant_1D.
  destruct (prepare_1D _ _ _ _ _ _ _ _) as [[[m1 t1] c1]|]; [|discriminate]. cbn [rbind]. destruct (n =? 0)%nat; [discriminate|]. destruct (nltb _ _).
  - intros H. right. congruence.
  - destruct (mapM _ _) as [acs|]; [|discriminate]. cbn [rbind]. unfold summary. destruct (nltb _ _); intros [= <- <- <- <-]; left; reflexivity.
Qed.
Print Assumptions C197_p_value.

(** it is a probability, and it falls when the autocorrelation rises *)
Theorem C197_probability : forall Phi cdf srt m wn kw draws mags mc delta times n min_num x cons p mac mu std,
  standard_cdf Phi cdf -> (forall z, 0 <= Phi z <= 1) -> 0 < std ->
  b_significant_1D srt cdf m wn kw draws mags mc delta times n min_num x cons = Ok (p, Fin mac, Fin mu, Fin std) ->
  exists q, p = Fin q /\ q = 1 - Phi ((mac - mu) / std) /\ 0 <= q <= 1.
Proof.
  intros Phi cdf srt m wn kw draws mags mc delta times n min_num x cons p mac mu std HP HB Hs H. apply C197_p_value in H. destruct H as [->|H]; [|discriminate].
  rewrite HP by exact Hs. rewrite x_one, x_sub. eexists. split; [reflexivity|]. split; [reflexivity|]. specialize (HB ((mac - mu) / std)). lra.
Qed.
Print Assumptions C197_probability.

(** conservative=False changes nothing but the standard deviation, which is 0.81 times the
    conservative one, and the p-value that follows from it *)
Theorem C197_conservative : forall srt cdf m wn kw draws mags mc delta times n min_num x,
  match b_significant_1D srt cdf m wn kw draws mags mc delta times n min_num x true,
        b_significant_1D srt cdf m wn kw draws mags mc delta times n min_num x false with
  | Ok (p1, mac1, mu1, std1), Ok (p2, mac2, mu2, std2) => mac2 = mac1 /\ mu2 = mu1 /\ std2 = nmul std1 (Fin (81 / 100))
  | Err e1, Err e2 => e1 = e2
  | _, _ => False
  end.
Proof.
  intros. unfold b_significant_1D. destruct (prepare_1D _ _ _ _ _ _ _ _) as [[[m1 t1] c1]|]; [|reflexivity]. cbn [rbind]. destruct (n =? 0)%nat; [reflexivity|]. destruct (nltb _ _).
  - cbn. repeat split.
  - destruct (mapM _ _) as [acs|]; [|reflexivity]. cbn [rbind]. unfold summary. rewrite x_lit. change (IZR 81 / IZR (10 ^ Z.of_nat 2)) with (81 / 100).
    destruct (nltb _ _); repeat split.
Qed.
Print Assumptions C197_conservative.

(** and it is conservative: for an autocorrelation above its expectation the p-value is not
    smaller; below the expectation it is not larger *)
Theorem C197_conservative_is_larger : forall Phi cdf srt m wn kw draws mags mc delta times n min_num x p1 mac mu std p2 mac2 mu2 std2,
  standard_cdf Phi cdf -> (forall y z, y <= z -> Phi y <= Phi z) -> 0 < std ->
  b_significant_1D srt cdf m wn kw draws mags mc delta times n min_num x true = Ok (Fin p1, Fin mac, Fin mu, Fin std) ->
  b_significant_1D srt cdf m wn kw draws mags mc delta times n min_num x false = Ok (Fin p2, mac2, mu2, std2) ->
  (mu <= mac -> p2 <= p1) /\ (mac <= mu -> p1 <= p2).
Proof.
  intros Phi cdf srt m wn kw draws mags mc delta times n min_num x p1 mac mu std p2 mac2 mu2 std2 HP HM Hs H1 H2.
  pose proof (C197_conservative srt cdf m wn kw draws mags mc delta times n min_num x) as C. rewrite H1, H2 in C. destruct C as (-> & -> & ->).
  apply C197_p_value in H1. apply C197_p_value in H2. destruct H1 as [H1|H1]; [|discriminate]. destruct H2 as [H2|H2]; [|discriminate].
  rewrite x_mul in H2. rewrite HP in H1 by exact Hs. rewrite HP in H2 by lra. rewrite x_one, x_sub in H1, H2. injection H1 as ->. injection H2 as ->.
  set (z := (mac - mu) / std). assert (E : (mac - mu) / (std * (81 / 100)) = z * (100 / 81)) by (unfold z; field; lra). rewrite E.
  assert (Z : (mu <= mac -> 0 <= z) /\ (mac <= mu -> z <= 0)).
  { unfold z. split; intros H.
    - apply Rmult_le_pos; [lra|]. apply Rlt_le, Rinv_0_lt_compat; exact Hs.
    - assert (0 <= - ((mac - mu) / std)); [|lra]. replace (- ((mac - mu) / std)) with ((mu - mac) * / std) by (field; lra). apply Rmult_le_pos; [lra|]. apply Rlt_le, Rinv_0_lt_compat; exact Hs. }
  destruct Z as [Z1 Z2]. split; intros H.
  - specialize (Z1 H). assert (Phi z <= Phi (z * (100 / 81))) by (apply HM; lra). lra.
  - specialize (Z2 H). assert (Phi (z * (100 / 81)) <= Phi z) by (apply HM; lra). lra.
Qed.
Print Assumptions C197_conservative_is_larger.

(** ** the mean autocorrelation, its expectation and standard deviation *)
(** the three numbers of one offset: autocorrelation, number of values, number of pairs; None is NaN *)
Definition row3 := (option R * option R * option R)%type.
Definition emb3 (r : row3) : xr * xr * xr := (ov (fst (fst r)), ov (snd (fst r)), ov (snd r)).
Definition mean_known (vs : list (option R)) : xr := match known vs with [] => NaN | _ => Fin (known_mean vs) end.
(** the values for the rows of all offsets *)
Definition moments (cons : bool) (rows : list row3) (mac mu std : xr) : Prop :=
  let acs := map (fun r => fst (fst r)) rows in let ns := map (fun r => snd (fst r)) rows in let nps := map snd rows in
  (known nps <> [] /\ 2 < known_mean nps ->
     mac = mean_known acs /\ mu = ndiv (Fin (-1)) (mean_known ns) /\
     std = Fin ((known_mean nps - 2) / (known_mean nps * sqrt (known_mean nps)) * (if cons then 1 else 81 / 100))) /\
  (known nps = [] \/ known_mean nps <= 2 -> mac = NaN /\ mu = NaN /\ std = NaN).

Lemma nanmean_known (vs : list (option R)) : nanmean (map ov vs) = mean_known vs.
Proof.
  unfold nanmean, mean_known. assert (E : filter (fun x => negb (nisnan x)) (map ov vs) = map Fin (known vs)).
  { induction vs as [|[v|] vs IH]; cbn [map ov filter known flat_map]; [reflexivity| |exact IH]. rewrite x_isnan. cbn [negb app map]. f_equal. exact IH. }
  rewrite E. destruct (known vs) as [|v l] eqn:K; [exact x_mean_nil|]. rewrite x_mean by discriminate. unfold known_mean. rewrite K. reflexivity.
Qed.
Lemma summary_moments cdf cons rows p mac mu std : summary cdf cons (map emb3 rows) = (p, mac, mu, std) -> moments cons rows mac mu std.
Proof.
  unfold summary.
  assert (E1 : map (fun x : xr * xr * xr => snd x) (map emb3 rows) = map ov (map snd rows)) by (rewrite !map_map; reflexivity).
  assert (E2 : map (fun x : xr * xr * xr => fst (fst x)) (map emb3 rows) = map ov (map (fun r => fst (fst r)) rows)) by (rewrite !map_map; reflexivity).
  assert (E3 : map (fun x : xr * xr * xr => snd (fst x)) (map emb3 rows) = map ov (map (fun r => snd (fst r)) rows)) by (rewrite !map_map; reflexivity).
  rewrite E1, E2, E3. clear E1 E2 E3. rewrite !nanmean_known.
  unfold moments. set (nps := map snd rows). assert (KM : mean_known nps = match known nps with [] => NaN | _ => Fin (known_mean nps) end) by reflexivity. rewrite KM. clear KM. destruct (known nps) as [|q l] eqn:K.
  - replace (nltb two NaN) with false by reflexivity. intros [= _ <- <- <-]. split; [intros [C _]; congruence|]. intros _. destruct cons; repeat split.
  - rewrite x_two, x_ltb. destruct (rlt 2 (known_mean nps)) eqn:L.
    + apply rlt_true in L. rewrite x_sqrt by lra. rewrite x_mul, x_sub. assert (Q : 0 < sqrt (known_mean nps)) by (apply sqrt_lt_R0; lra). rewrite x_div by nra. rewrite x_lit, x_mul.
      intros H. assert (H' := f_equal (fun t => (snd (fst (fst t)), snd (fst t), snd t)) H). cbn [fst snd] in H'. clear H.
      split; [|intros [C|C]; [discriminate|lra]]. intros _. set (mm := mean_known (map (fun r : row3 => snd (fst r)) rows)) in *. clearbody mm.
      assert (H1 := f_equal (fun t => fst (fst t)) H'). assert (H2 := f_equal (fun t => snd (fst t)) H'). assert (H3 := f_equal snd H'). cbn [fst snd] in H1, H2, H3.
      split; [symmetry; exact H1|]. split; [symmetry; exact H2|]. rewrite <- H3. destruct cons; [rewrite Rmult_1_r; reflexivity|reflexivity].
    + apply rlt_false in L. intros [= _ <- <- <-]. split; [intros [_ C]; lra|]. intros _. destruct cons; repeat split.
Qed.

(** with at least three times n_m complete events, the results are these moments of the rows
    of the offsets 0 .. n_m - 1 (if they hold numbers or NaN) *)
Theorem C197_moments : forall srt cdf m wn kw draws ev delta n min_num cons rows p mac mu std,
  (0 < n)%nat -> (min_num <= n)%nat ->
  let series := complete1 delta ev in
  (3 * n <= length series)%nat ->
  b_significant_1D srt cdf m wn kw draws (map ev_m ev) (Array (map ev_c ev)) delta (map ev_t ev) n min_num None cons = Ok (p, mac, mu, std) ->
  (forall ii lmc, (ii < n)%nat -> Forall2 (fun j c => pymax (map ev_c (window n series j)) = Ok c) (starts n (length series) ii) lmc ->
     exists r, nth_error rows ii = Some r /\
       ac_one srt m wn kw (draws ii) delta min_num
         (map (fun j => map ev_m (window n series j)) (starts n (length series) ii),
          map (fun j => map ev_t (window n series j)) (starts n (length series) ii), lmc) = Ok (emb3 r)) ->
  length rows = n ->
  moments cons rows mac mu std /\ p = nsub one (cdf mu std mac).
Proof.
  intros srt cdf m wn kw draws ev delta n min_num cons rows p mac mu std Hn Hm series L H Hr Hl.
  destruct (C36_subsamples srt cdf m wn kw draws ev delta n min_num cons Hn Hm) as [_ HC]. destruct (HC L) as (lmc & F & R). rewrite H in R.
  change (complete1 delta ev) with series in R, F.
  assert (E : mapM (fun ii => ac_one srt m wn kw (draws ii) delta min_num
           (map (fun j => map ev_m (window n series j)) (starts n (length series) ii),
            map (fun j => map ev_t (window n series j)) (starts n (length series) ii), lmc ii)) (seq 0 n) = Ok (map emb3 rows)).
  { assert (G : forall k rs, (k + length rs = n)%nat -> (forall i, (i < length rs)%nat -> nth_error rs i = nth_error rows (k + i)) ->
      mapM (fun ii => ac_one srt m wn kw (draws ii) delta min_num
           (map (fun j => map ev_m (window n series j)) (starts n (length series) ii),
            map (fun j => map ev_t (window n series j)) (starts n (length series) ii), lmc ii)) (seq k (length rs)) = Ok (map emb3 rs)).
    { intros k rs. revert k. induction rs as [|r rs IH]; intros k Hk Hq; [reflexivity|]. cbn [length] in *. cbn [seq mapM map].
      destruct (Hr k (lmc k) ltac:(lia) (F k ltac:(lia))) as (r' & Hr' & ->). specialize (Hq 0%nat ltac:(lia)) as Q0. cbn [nth_error] in Q0. rewrite Nat.add_0_r, Hr' in Q0. injection Q0 as <-.
      cbn [rbind]. rewrite (IH (S k)); [reflexivity|lia|]. intros i Hi. specialize (Hq (S i) ltac:(lia)). cbn [nth_error] in Hq. rewrite Hq. f_equal. lia. }
    pose proof (G 0%nat rows ltac:(lia) (fun i _ => eq_refl)) as GG. rewrite Hl in GG. exact GG. }
  rewrite E in R. cbn [rmap] in R. injection R as R. symmetry in R. split; [exact (summary_moments _ _ _ _ _ _ _ R)|]. unfold summary in R. destruct (nltb _ _) in R; injection R as <- <- <- <-; reflexivity.
Qed.
Print Assumptions C197_moments.

(** two offsets: the moments, and a distribution function that meets the hypotheses *)
Example C197_case : moments true [(Some (1 / 2), Some 4, Some 3); (Some (1 / 4), Some 6, Some 5)] (Fin (3 / 8)) (Fin (-1 / 5)) (Fin (1 / 4)) /\
  moments false [(Some 1, Some 2, Some 1); (None, None, None)] NaN NaN NaN /\
  (let Phi z := if Rlt_dec z 0 then 0 else 1 in
   let cdf a b c := match a, b, c with Fin mu, Fin s, Fin x => Fin (Phi ((x - mu) / s)) | _, _, _ => NaN end in
   standard_cdf Phi cdf /\ (forall z, 0 <= Phi z <= 1) /\ (forall y z, y <= z -> Phi y <= Phi z)).
Proof.
  split; [|split].
  - unfold moments. cbn [map fst snd known flat_map app]. unfold known_mean, mean_known, Rsum. cbn [map fst snd known flat_map app fold_right length INR].
    split; [|intros [C|C]; [discriminate|lra]]. intros _. unfold known_mean, Rsum. cbn. split; [f_equal; lra|]. split.
    + change (Fin (-1 / 5) = ndiv (Fin (-1)) (Fin ((4 + (6 + 0)) / (1 + 1)))). rewrite x_div by lra. f_equal. lra.
    + f_equal. replace ((3 + (5 + 0)) / (1 + 1)) with (2 * 2) by lra. rewrite sqrt_square by lra. field.
  - unfold moments. cbn. unfold known_mean, Rsum. cbn. split; [intros [_ C]; lra|]. intros _. repeat split.
  - cbv zeta. split; [|split].
    + intros mu s x _. reflexivity.
    + intros z. destruct (Rlt_dec z 0); lra.
    + intros y z H. destruct (Rlt_dec y 0), (Rlt_dec z 0); lra.
Qed.
