(** * C121-C124: what plot_fmd and plot_cum_fmd draw *)
From Coq Require Import Reals Lra Lia ZArith List Bool Sorted.
From Verif Require Import Base Num XR RList SortLib Binning_model Spec_Binning Binning_proofs BinTest_proofs Fmd_proofs BSig_model Plots_model Spec_Plots Props_Plots.
Import ListNotations.
Open Scope R_scope.

(** [ys] are the magnitudes [xs] rounded to the bins of width [d] (unchanged for d = 0) *)
Definition rounded (d : R) (xs ys : list R) : Prop :=
  (d = 0 /\ ys = xs) \/ (epsR <= d /\ Forall2 (near_grid d) xs ys).
(** the bins are drawn at their centres or at their left edges *)
Definition shift (d : R) (pos : binpos) : R := match pos with LeftEdge => d / 2 | _ => 0 end.

Lemma not_nan_fins x : no_inf x -> not_nan x = map Fin (fins x).
Proof. apply filter_notnan_fins. Qed.
Lemma grid_sorted d lo n : 0 < d -> StronglySorted Rlt (grid d lo n).
Proof.
  intros Hd. revert lo. induction n as [|n IH]; intros lo; [constructor|]. rewrite grid_S. constructor; [apply IH|].
  apply Forall_forall. intros y Hy. apply grid_in in Hy. destruct Hy as (k & Hk & ->).
  apply Rmult_lt_compat_r; [exact Hd|]. apply IZR_lt. lia.
Qed.
Lemma binR_grid d x : 0 < d -> exists k, binR d x = IZR k * d.
Proof. intros Hd. eexists. reflexivity. Qed.
Lemma ys_in_grid d lo n xs : 0 < d -> is_min (IZR lo * d) (map (binR d) xs) -> is_max (IZR (lo + Z.of_nat n) * d) (map (binR d) xs) ->
  forall y, In y (map (binR d) xs) -> In y (grid d lo (S n)).
Proof.
  intros Hd [_ H1] [_ H2] y Hy. pose proof (H1 y Hy) as A. pose proof (H2 y Hy) as B.
  apply in_map_iff in Hy. destruct Hy as (x & <- & _). destruct (binR_grid d x Hd) as (k & E). rewrite E in *.
  apply grid_in. exists k. split; [|reflexivity].
  apply Rmult_le_reg_r in A; [|exact Hd]. apply Rmult_le_reg_r in B; [|exact Hd]. apply le_IZR in A, B. lia.
Qed.
Lemma map_minus_0 (l : list R) : map (fun b => b - 0) l = l.
Proof. induction l as [|a l IH]; cbn; [reflexivity|]. rewrite IH. f_equal. lra. Qed.
(** the cumulative distribution in all modes *)
Lemma cum_R xs ws delta pos : xs <> [] -> decR delta = 0 \/ epsR <= decR delta -> length ws = length xs -> pos <> OtherPos ->
  exists bins ys, rounded (decR delta) xs ys /\ StronglySorted Rlt bins /\ (forall y, In y ys -> In y bins) /\ ys <> [] /\ length ys = length xs /\
    get_cum_fmd (map Fin xs) delta (Some (map Fin ws)) pos
    = Ok (map Fin (map (fun b => b - shift (decR delta) pos) bins), map Fin (map (fun b => weight_of (fun y => rle b y) ys ws) bins), map Fin ys).
Proof.
  intros Hne Hd Hl Hp. pose proof epsR_bounds as Eb. destruct Hd as [Hd|Hd].
  - destruct (get_cum_fmd_zero xs delta ws pos Hd Hl) as (bins & S & I & E). exists bins, xs.
    split; [left; auto|]. split; [exact S|]. split; [intros y Hy; apply I; exact Hy|]. split; [exact Hne|]. split; [reflexivity|]. 
    assert (Hs : shift (decR delta) pos = 0) by (unfold shift; destruct pos; lra). rewrite Hs, map_minus_0. exact E.
  - destruct (get_cum_fmd_R xs delta ws pos Hne Hd Hl) as (lo & n & Hmin & Hmax & E). cbv zeta in E.
    exists (grid (decR delta) lo (S n)), (map (binR (decR delta)) xs).
    split; [right; split; [exact Hd|]; apply Forall2_map_r; intros x _; apply binR_near; lra|].
    split; [apply grid_sorted; lra|]. split; [apply ys_in_grid; auto; lra|].
    split; [destruct xs; [congruence|discriminate]|]. split; [apply map_length|]. rewrite E. unfold shift. destruct pos; [|reflexivity|congruence].
    rewrite map_minus_0. reflexivity.
Qed.

(** ** C121: the points *)
Definition bin_or_zero (delta : option dec) : dec := match delta with None => mkdec 0 0 | Some d => d end.
Lemma zip_maps {A B C} (f : A -> B) (g : A -> C) l : zip (map f l) (map g l) = map (fun a => (f a, g a)) l.
Proof. induction l; cbn; congruence. Qed.
Lemma cum_plot_R mags mc delta ws b pos : no_inf mags -> fins mags <> [] ->
  decR (bin_or_zero delta) = 0 \/ epsR <= decR (bin_or_zero delta) -> pos <> OtherPos ->
  match ws with Some w => length w = length (fins mags) | None => True end ->
  exists bins ys, rounded (decR (bin_or_zero delta)) (fins mags) ys /\ StronglySorted Rlt bins /\ (forall y, In y ys -> In y bins) /\ ys <> [] /\
    length ys = length (fins mags) /\
    let h := shift (decR (bin_or_zero delta)) pos in
    let d := decR (bin_or_zero delta) in
    let pts := map (fun c => (Fin (c - h), Fin (match ws with Some w => weight_of (fun y => rle c y) ys w | None => number_of (fun y => rle c y) ys end))) bins in
    plot_cum_fmd mags (option_map Fin mc) delta (option_map (map Fin) ws) (option_map Fin b) pos
    = match b with
      | None => Ok (mkcp pts None)
      | Some b =>
          let? mc := match mc with None => pymin (map Fin ys) | Some c => Ok (Fin c) end in
          match mc with
          | Fin mc =>
              let x := filter (fun c => rle (mc - d / 2) c) bins in
              let? x0 := pymin (map Fin (map (fun c => c - h) x)) in
              Ok (mkcp pts (Some (zip (map Fin (map (fun c => c - h) x))
                (gutenberg_richter (map Fin (map (fun c => c - h) x)) (Fin b) x0 (Fin (number_of (fun y => rle (mc - d / 2) y) ys))))))
          | _ => Err ValueError
          end
      end.
Proof.
  intros Hi Hne Hd Hp Hw. unfold plot_cum_fmd. rewrite not_nan_fins by exact Hi. fold zero_dec in *.
  change (match delta with None => zero_dec | Some d0 => d0 end) with (bin_or_zero delta).
  set (w' := match ws with Some w => w | None => map (fun _ => 1) (fins mags) end).
  assert (Hw' : length w' = length (fins mags)) by (unfold w'; destruct ws; [exact Hw|apply map_length]).
  destruct (cum_R (fins mags) w' (bin_or_zero delta) pos Hne Hd Hw' Hp) as (bins & ys & R1 & R2 & R3 & R4 & R5 & E).
  exists bins, ys. repeat (split; [assumption|]). cbv zeta.
  assert (E2 : get_cum_fmd (map Fin (fins mags)) (bin_or_zero delta) (option_map (map Fin) ws) pos
    = Ok (map Fin (map (fun b => b - shift (decR (bin_or_zero delta)) pos) bins), map Fin (map (fun b => weight_of (fun y => rle b y) ys w') bins), map Fin ys)).
  { destruct ws as [w|]; cbn [option_map]; [exact E|]. rewrite get_cum_fmd_None. exact E. }
  rewrite E2. cbn [rbind]. clear E E2.
  assert (P : zip (map Fin (map (fun b : R => b - shift (decR (bin_or_zero delta)) pos) bins)) (map Fin (map (fun b => weight_of (fun y => rle b y) ys w') bins))
    = map (fun c => (Fin (c - shift (decR (bin_or_zero delta)) pos), Fin (match ws with Some w => weight_of (fun y => rle c y) ys w | None => number_of (fun y => rle c y) ys end))) bins).
  { rewrite !map_map, zip_maps. apply map_ext. intros c. do 2 f_equal. unfold w'. destruct ws; [reflexivity|].
    rewrite <- weight_of_unit. f_equal. clear -R5. revert R5. generalize (fins mags) as xs. induction ys as [|y ys IH]; intros [|x xs] H; cbn in H; try lia; [reflexivity|].
    cbn [map]. f_equal. apply IH. lia. }
  rewrite P. destruct b as [b|]; cbn [option_map]; [|reflexivity].
  assert (Em : forall mcx, (let? mc0 := Ok (Fin mcx) in
    let half_bin := ndiv (dec_val (bin_or_zero delta)) two in
    let n_mc := length (filter (fun m => nleb (nsub mc0 half_bin) m) (map Fin ys)) in
    let mc1 := match pos with LeftEdge => nsub mc0 half_bin | _ => mc0 end in
    let x := filter (fun v => nleb (nsub mc1 half_bin) v) (map Fin (map (fun b0 => b0 - shift (decR (bin_or_zero delta)) pos) bins)) in
    let? x0 := pymin x in
    Ok (mkcp (map (fun c => (Fin (c - shift (decR (bin_or_zero delta)) pos), Fin (match ws with Some w => weight_of (fun y => rle c y) ys w | None => number_of (fun y => rle c y) ys end))) bins) (Some (zip x (gutenberg_richter x (Fin b) x0 (ofnat n_mc))))))
   = let x := filter (fun c => rle (mcx - decR (bin_or_zero delta) / 2) c) bins in
     let? x0 := pymin (map Fin (map (fun c => c - shift (decR (bin_or_zero delta)) pos) x)) in
     Ok (mkcp (map (fun c => (Fin (c - shift (decR (bin_or_zero delta)) pos), Fin (match ws with Some w => weight_of (fun y => rle c y) ys w | None => number_of (fun y => rle c y) ys end))) bins)
        (Some (zip (map Fin (map (fun c => c - shift (decR (bin_or_zero delta)) pos) x))
           (gutenberg_richter (map Fin (map (fun c => c - shift (decR (bin_or_zero delta)) pos) x)) (Fin b) x0 (Fin (number_of (fun y => rle (mcx - decR (bin_or_zero delta) / 2) y) ys))))))).
  { intros mcx. cbn [rbind]. cbv zeta. change (@two xr XR) with (Fin 2). rewrite x_dec_val, !x_div by lra.
    assert (F : filter (fun v => nleb (nsub (match pos with LeftEdge => nsub (Fin mcx) (Fin (decR (bin_or_zero delta) / 2)) | _ => Fin mcx end) (Fin (decR (bin_or_zero delta) / 2))) v)
        (map Fin (map (fun b0 => b0 - shift (decR (bin_or_zero delta)) pos) bins))
      = map Fin (map (fun c => c - shift (decR (bin_or_zero delta)) pos) (filter (fun c => rle (mcx - decR (bin_or_zero delta) / 2) c) bins))).
    { rewrite !map_map, !filter_map_swap. f_equal. apply filter_ext. intros c. unfold shift. destruct pos; [| |congruence]; rewrite ?x_sub, x_leb; unfold rle; destruct (Rle_dec _ _), (Rle_dec _ _); try reflexivity; lra. }
    rewrite F. replace (length (filter (fun m => nleb (nsub (Fin mcx) (Fin (decR (bin_or_zero delta) / 2))) m) (map Fin ys)))
      with (count (fun y => rle (mcx - decR (bin_or_zero delta) / 2) y) ys).
    - unfold ofnat, number_of. rewrite x_ofZ, <- INR_IZR_INZ. reflexivity.
    - unfold count. rewrite filter_map_swap, map_length. f_equal. }
  destruct mc as [mcx|]; cbn [option_map]; [exact (Em mcx)|].
  destruct ys as [|y0 ys']; [congruence|]. destruct (pymin_fin y0 ys') as (m & -> & _). exact (Em m).
Qed.
Theorem C121_points : forall mags delta pos mc, no_inf mags -> fins mags <> [] ->
  decR (bin_or_zero delta) = 0 \/ epsR <= decR (bin_or_zero delta) -> pos <> OtherPos ->
  exists bins ys, rounded (decR (bin_or_zero delta)) (fins mags) ys /\ StronglySorted Rlt bins /\ (forall y, In y ys -> In y bins) /\
    plot_cum_fmd mags (option_map Fin mc) delta None None pos
    = Ok (mkcp (map (fun c => (Fin (c - shift (decR (bin_or_zero delta)) pos), Fin (number_of (fun y => rle c y) ys))) bins) None).
Proof.
  intros mags delta pos mc H1 H2 H3 H4. destruct (cum_plot_R mags mc delta None None pos H1 H2 H3 H4 I) as (bins & ys & A & B & C & _ & _ & E).
  exists bins, ys. auto.
Qed.
Print Assumptions C121_points.
Theorem C121_points_weighted : forall mags delta pos mc ws, no_inf mags -> fins mags <> [] -> length ws = length (fins mags) ->
  decR (bin_or_zero delta) = 0 \/ epsR <= decR (bin_or_zero delta) -> pos <> OtherPos ->
  exists bins ys, rounded (decR (bin_or_zero delta)) (fins mags) ys /\ StronglySorted Rlt bins /\ (forall y, In y ys -> In y bins) /\
    plot_cum_fmd mags (option_map Fin mc) delta (Some (map Fin ws)) None pos
    = Ok (mkcp (map (fun c => (Fin (c - shift (decR (bin_or_zero delta)) pos), Fin (weight_of (fun y => rle c y) ys ws))) bins) None).
Proof.
  intros mags delta pos mc ws H1 H2 Hw H3 H4. destruct (cum_plot_R mags mc delta (Some ws) None pos H1 H2 H3 H4 Hw) as (bins & ys & A & B & C & _ & _ & E).
  exists bins, ys. auto.
Qed.
Print Assumptions C121_points_weighted.
(** the histogram: the number of events of each bin *)
Theorem C121_histogram : forall mags delta pos, no_inf mags -> fins mags <> [] -> epsR <= decR delta -> pos <> OtherPos ->
  exists bins ys, rounded (decR delta) (fins mags) ys /\ StronglySorted Rlt bins /\ (forall y, In y ys -> In y bins) /\
    plot_fmd mags delta None pos
    = Ok (map (fun c => (Fin (c - shift (decR delta) pos), Fin (number_of (fun y => req y c) ys))) bins).
Proof.
  intros mags delta pos Hi Hne Hd Hp. pose proof epsR_bounds as Eb. unfold plot_fmd. rewrite not_nan_fins by exact Hi.
  destruct (get_fmd_R (fins mags) delta (map (fun _ => 1) (fins mags)) pos Hne Hd (map_length _ _)) as (lo & n & Hmin & Hmax & E). cbv zeta in E.
  rewrite get_fmd_None, E. clear E. exists (grid (decR delta) lo (S n)), (map (binR (decR delta)) (fins mags)).
  split; [right; split; [exact Hd|]; apply Forall2_map_r; intros x _; apply binR_near; lra|].
  split; [apply grid_sorted; lra|]. split; [apply ys_in_grid; auto; lra|].
  assert (W : forall c, weight_of (fun y => req y c) (map (binR (decR delta)) (fins mags)) (map (fun _ => 1) (fins mags))
    = number_of (fun y => req y c) (map (binR (decR delta)) (fins mags))).
  { intros c. rewrite <- weight_of_unit. f_equal. rewrite map_map. reflexivity. }
  unfold shift. destruct pos; [| |congruence]; cbn [rbind]; rewrite !map_map, zip_maps; apply f_equal; apply map_ext; intros c; rewrite W; do 2 f_equal; lra.
Qed.
Print Assumptions C121_histogram.

(** ** C122: the line of the theoretical distribution *)
Lemma number_of_ext P Q ys : (forall y, In y ys -> P y = Q y) -> number_of P ys = number_of Q ys.
Proof. intros H. unfold number_of, count. rewrite (filter_ext_in' P Q ys H). reflexivity. Qed.
Lemma pymin_map_head (x0 : R) l : StronglySorted Rlt (x0 :: l) -> pymin (map Fin (x0 :: l)) = Ok (Fin x0).
Proof.
  intros S. destruct (pymin_fin x0 l) as (m & -> & A & B). do 2 f_equal. inversion S as [|? ? _ F]; subst.
  pose proof (B x0 (or_introl eq_refl)). destruct A as [A|A]; [auto|]. rewrite Forall_forall in F. pose proof (F m A). lra.
Qed.
Lemma sorted_map_shift h l : StronglySorted Rlt l -> StronglySorted Rlt (map (fun c => c - h) l).
Proof.
  induction 1 as [|a l S IH F]; cbn; constructor; auto. rewrite Forall_forall in *. intros y Hy. apply in_map_iff in Hy.
  destruct Hy as (x & <- & Hx). pose proof (F x Hx). lra.
Qed.
Lemma sorted_filter {A} (R : A -> A -> Prop) p l : StronglySorted R l -> StronglySorted R (filter p l).
Proof.
  induction 1 as [|a l S IH F]; cbn; [constructor|]. destruct (p a); [|exact IH]. constructor; [exact IH|].
  rewrite Forall_forall in *. intros y Hy. apply filter_In in Hy. apply F. tauto.
Qed.
(** the line consists of the bins from the completeness magnitude on; it starts at the point of the
    cumulative distribution in its first bin and decays by the factor 10^(-b) per magnitude *)
Theorem C122_line_through_first_point : forall mags mc delta b pos, no_inf mags -> fins mags <> [] ->
  decR (bin_or_zero delta) = 0 \/ epsR <= decR (bin_or_zero delta) -> pos <> OtherPos ->
  let d := decR (bin_or_zero delta) in
  let h := shift d pos in
  exists ys, rounded d (fins mags) ys /\
  ((forall y, In y ys -> y < mc - d / 2) /\ plot_cum_fmd mags (Some (Fin mc)) delta None (Some (Fin b)) pos = Err ValueError \/
   exists pts x0 n xs,
     plot_cum_fmd mags (Some (Fin mc)) delta None (Some (Fin b)) pos
       = Ok (mkcp pts (Some (map (fun x => (Fin x, Fin (n * Rpower 10 (- b * (x - x0))))) (x0 :: xs)))) /\
     In (Fin x0, Fin n) pts /\ n = number_of (fun y => rle (mc - d / 2) y) ys /\
     (forall x, In x (x0 :: xs) <-> mc - d / 2 <= x + h /\ exists y, In (Fin x, y) pts) /\
     Forall (fun x => x0 < x) xs).
Proof.
  intros mags mc delta b pos H1 H2 H3 H4 d h.
  destruct (cum_plot_R mags (Some mc) delta None (Some b) pos H1 H2 H3 H4 I) as (bins & ys & A & B & C & _ & _ & E).
  exists ys. split; [exact A|]. cbv zeta in E. cbn [option_map rbind] in E. fold d in E. fold h in E.
  set (pts := map (fun c => (Fin (c - h), Fin (number_of (fun y => rle c y) ys))) bins) in *.
  pose proof (sorted_filter Rlt (fun c => rle (mc - d / 2) c) bins B) as SF.
  assert (FI : forall c, In c (filter (fun c => rle (mc - d / 2) c) bins) <-> In c bins /\ mc - d / 2 <= c).
  { intros c. rewrite filter_In, rle_true. reflexivity. }
  destruct (filter (fun c => rle (mc - d / 2) c) bins) as [|c0 cs] eqn:F.
  - left. split; [|exact E]. intros y Hy. destruct (Rlt_le_dec y (mc - d / 2)) as [L|L]; [exact L|].
    destruct (proj2 (FI y) (conj (C y Hy) L)).
  - right. rewrite map_cons, pymin_map_head in E.
    2:{ rewrite <- (map_cons (fun c => c - h)). apply sorted_map_shift. exact SF. }
    cbn [rbind] in E. rewrite <- (map_cons (fun c => c - h)) in E.
    exists pts, (c0 - h), (number_of (fun y => rle (mc - d / 2) y) ys), (map (fun c => c - h) cs).
    split; [|split; [|split; [reflexivity|split]]].
    + rewrite E. do 3 f_equal. unfold gutenberg_richter. rewrite <- (map_cons (fun c => c - h)). rewrite !map_map, zip_maps.
      apply map_ext. intros c. rewrite x_sub, x_opp, x_mul. cbn [npow10 XR xpow10]. rewrite x_mul. reflexivity.
    + unfold pts. apply in_map_iff. exists c0. split; [|apply FI; left; reflexivity]. do 2 f_equal. apply number_of_ext.
      intros y Hy. unfold rle. destruct (Rle_dec c0 y) as [L|L], (Rle_dec (mc - d / 2) y) as [M|M]; auto; exfalso.
      * pose proof (proj1 (FI c0) (or_introl eq_refl)). lra.
      * apply L. destruct (proj2 (FI y) (conj (C y Hy) M)) as [->|Hc]; [lra|]. inversion SF as [|? ? _ FF]; subst.
        rewrite Forall_forall in FF. left. apply FF. exact Hc.
    + intros x. rewrite <- (map_cons (fun c => c - h)), in_map_iff. split.
      * intros (c & <- & Hc). apply FI in Hc. split; [lra|]. eexists. unfold pts. apply in_map_iff. exists c. split; [reflexivity|tauto].
      * intros (L & y & Hy). unfold pts in Hy. apply in_map_iff in Hy. destruct Hy as (c & Ec & Hc). injection Ec as <- _.
        exists c. split; [reflexivity|]. apply FI. split; [exact Hc|lra].
    + inversion SF as [|? ? _ FF]; subst. rewrite Forall_forall in *. intros x Hx. apply in_map_iff in Hx. destruct Hx as (c & <- & Hc).
      pose proof (FF c Hc). lra.
Qed.
Print Assumptions C122_line_through_first_point.
(** without mc the line starts at the smallest (binned) magnitude, at the number of all events *)
Theorem C122_default_mc : forall mags delta b pos, no_inf mags -> fins mags <> [] ->
  decR (bin_or_zero delta) = 0 \/ epsR <= decR (bin_or_zero delta) -> pos <> OtherPos ->
  exists ys m, rounded (decR (bin_or_zero delta)) (fins mags) ys /\ is_min m ys /\
    plot_cum_fmd mags None delta None (Some (Fin b)) pos = plot_cum_fmd mags (Some (Fin m)) delta None (Some (Fin b)) pos /\
    number_of (fun y => rle (m - decR (bin_or_zero delta) / 2) y) ys = INR (length (fins mags)).
Proof.
  intros mags delta b pos H1 H2 H3 H4. pose proof epsR_bounds as Eb.
  destruct (cum_plot_R mags None delta None (Some b) pos H1 H2 H3 H4 I) as (bins & ys & A & B & C & D & L & E).
  destruct ys as [|y0 ys']; [congruence|]. destruct (pymin_fin y0 ys') as (m & Em & M1 & M2).
  exists (y0 :: ys'), m. split; [exact A|]. split; [split; assumption|]. split.
  - unfold plot_cum_fmd in *. rewrite not_nan_fins in * by exact H1. cbn [option_map] in E |- *.
    destruct (cum_R (fins mags) (map (fun _ => 1) (fins mags)) (bin_or_zero delta) pos H2 H3 (map_length _ _) H4) as (bins' & ys2 & _ & _ & _ & _ & _ & E2).
    rewrite <- get_cum_fmd_None in E2.
    change (match delta with None => zero_dec | Some d0 => d0 end) with (bin_or_zero delta) in *. rewrite E2 in E |- *. cbn [rbind] in *.
    assert (EY : pymin (map Fin ys2) = Ok (Fin m)).
    { clear E. destruct A as [[Z EZ]|[Z F]].
      - destruct (get_cum_fmd_zero (fins mags) (bin_or_zero delta) (map (fun _ => 1) (fins mags)) pos Z (map_length _ _)) as (b2 & _ & _ & E3).
        rewrite <- get_cum_fmd_None, E2 in E3. injection E3 as _ _ E3. rewrite E3, <- EZ. exact Em.
      - destruct (get_cum_fmd_R (fins mags) (bin_or_zero delta) (map (fun _ => 1) (fins mags)) pos H2 Z (map_length _ _)) as (lo & n & _ & _ & E3).
        cbv zeta in E3. rewrite <- get_cum_fmd_None, E2 in E3.
        assert (F' : map Fin ys2 = map Fin (map (binR (decR (bin_or_zero delta))) (fins mags))) by (destruct pos; [| |congruence]; injection E3 as _ _ E3; exact E3).
        rewrite F'. replace (map (binR (decR (bin_or_zero delta))) (fins mags)) with (y0 :: ys'); [exact Em|].
        clear -F Z Eb. revert F. generalize (y0 :: ys') as zs. induction (fins mags) as [|x xs IH]; intros zs F; inversion F; subst; [reflexivity|].
        cbn [map]. f_equal; [|apply IH; assumption]. apply (near_grid_unique (decR (bin_or_zero delta)) x); [lra|assumption|apply binR_near; lra]. }
    rewrite EY. reflexivity.
  - rewrite <- L. unfold number_of, count. apply f_equal. rewrite (filter_ext_in' _ (fun _ => true)), filter_true; [reflexivity|].
    intros y Hy. apply rle_true. pose proof (M2 y Hy). destruct H3; lra.
Qed.
Print Assumptions C122_default_mc.
Example C122_example : let mags := [Fin 1; NaN; Fin 2; Fin 2] in
  no_inf mags /\ fins mags = [1; 2; 2] /\ decR (bin_or_zero None) = 0 /\ Center <> OtherPos /\ epsR <= decR (mkdec 1 0).
Proof.
  cbv zeta. split; [intros v [<-|[<-|[<-|[<-|[]]]]]; split; discriminate|]. split; [reflexivity|].
  split; [unfold decR; cbn; lra|]. split; [discriminate|]. pose proof epsR_bounds. unfold decR; cbn; lra.
Qed.

(** ** C123: missing magnitudes together with weights *)
Theorem C123_nan_with_weights_refuted : forall mags ws delta b mc pos, no_inf mags -> In NaN mags -> fins mags <> [] ->
  length ws = length mags -> decR (bin_or_zero delta) = 0 \/ epsR <= decR (bin_or_zero delta) ->
  plot_cum_fmd mags mc delta (Some ws) b pos = Err ValueError /\
  (epsR <= decR (bin_or_zero delta) -> plot_fmd mags (bin_or_zero delta) (Some ws) pos = Err ValueError).
Proof.
  intros mags ws delta b mc pos Hi Hn Hne Hl Hd. pose proof epsR_bounds as Eb.
  assert (Ln : (length ws =? length (fins mags))%nat = false).
  { apply Nat.eqb_neq. rewrite Hl. clear -Hn. assert (length (fins mags) < length mags)%nat; [|lia].
    induction mags as [|a mags IH]; [destruct Hn|]. assert (length (fins mags) <= length mags)%nat by (clear; induction mags as [|[]]; cbn; lia).
    destruct Hn as [->|Hn]; [cbn; lia|]. specialize (IH Hn). destruct a; cbn; lia. }
  assert (G : epsR <= decR (bin_or_zero delta) -> get_fmd (map Fin (fins mags)) (bin_or_zero delta) (Some ws) pos = Err ValueError).
  { intros He. destruct (get_fmd_R (fins mags) (bin_or_zero delta) (map (fun _ => 1) (fins mags)) Center Hne He (map_length _ _)) as (lo & n & _ & _ & E).
    cbv zeta in E. unfold get_fmd in *. rewrite x_dec_val in *. destruct (nleb (Fin (decR (bin_or_zero delta))) zero); [discriminate|].
    destruct (bin_to_precision (Some (map Fin (fins mags))) (bin_or_zero delta)) as [bn|] eqn:EB; [|discriminate]. cbn [rbind] in *.
    assert (LB : length bn = length (fins mags)).
    { unfold bin_to_precision in EB. destruct (nltb _ _); [discriminate|]. injection EB as <-. rewrite !map_length. reflexivity. }
    destruct bn as [|b0 bt]; [discriminate|]. destruct (np_arange _ _ _) as [ar|]; [|discriminate]. cbn [rbind] in *.
    destruct (bin_to_precision (Some ar) (bin_or_zero delta)); [|discriminate]. cbn [rbind]. rewrite LB, Ln. reflexivity. }
  split.
  - unfold plot_cum_fmd. rewrite not_nan_fins by exact Hi. change (match delta with None => zero_dec | Some d0 => d0 end) with (bin_or_zero delta).
    unfold get_cum_fmd. rewrite x_dec_val, x_zero, x_eqb. destruct Hd as [Z|He].
    + rewrite (proj2 (req_true _ _) Z), map_length, Ln. reflexivity.
    + rewrite (proj2 (req_false (decR (bin_or_zero delta)) 0)) by lra. rewrite (G He). reflexivity.
  - intros He. unfold plot_fmd. rewrite not_nan_fins by exact Hi. rewrite (G He). reflexivity.
Qed.
Print Assumptions C123_nan_with_weights_refuted.

(** ** C124: the line of a weighted distribution *)
Theorem C124_weighted_line_refuted : exists mags ws b pts line,
  plot_cum_fmd (map Fin mags) None None (Some (map Fin ws)) (Some (Fin b)) Center = Ok (mkcp pts (Some line)) /\
  hd_error pts = Some (Fin 1, Fin 4) /\ hd_error line = Some (Fin 1, Fin 2).
Proof.
  exists [1; 1], [2; 2], 1.
  assert (Z : decR (mkdec 0 0) = 0) by (unfold decR; cbn; lra).
  destruct (get_cum_fmd_zero [1; 1] (mkdec 0 0) [2; 2] Center Z eq_refl) as (b3 & S3 & I3 & E3).
  assert (B3 : b3 = [1]).
  { destruct b3 as [|x b3]; [destruct (proj2 (I3 1) (or_introl eq_refl))|].
    assert (x = 1) as -> by (destruct (proj1 (I3 x) (or_introl eq_refl)) as [<-|[<-|[]]]; reflexivity).
    destruct b3 as [|x2 b3]; [reflexivity|]. exfalso. inversion S3 as [|? ? _ F]; subst. inversion F; subst.
    destruct (proj1 (I3 x2) (or_intror (or_introl eq_refl))) as [<-|[<-|[]]]; lra. }
  subst b3. unfold plot_cum_fmd. change zero_dec with (mkdec 0 0).
  replace (not_nan (map Fin [1; 1])) with (map Fin [1; 1]) by reflexivity. rewrite E3. cbn [rbind].
  change (@two xr XR) with (Fin 2). rewrite x_dec_val, Z, x_div by lra.
  replace (pymin (map Fin [1; 1])) with (@Ok xr (Fin 1)) by (cbn [map pymin fold_left]; rewrite x_ltb, (proj2 (rlt_false 1 1)) by lra; reflexivity).
  cbn [rbind map filter]. rewrite x_sub, x_leb, (proj2 (rle_true (1 - 0 / 2) 1)) by lra. cbn [pymin fold_left rbind length zip].
  eexists _, _. split; [reflexivity|]. cbn [hd_error zip gutenberg_richter map]. split.
  - do 3 f_equal. unfold weight_of. cbn [zip filter fst]. rewrite (proj2 (rle_true 1 1)) by lra. cbn. lra.
  - unfold gutenberg_richter. cbn [map zip hd_error]. do 2 f_equal.
    rewrite x_sub, x_opp, x_mul. cbn [npow10 XR xpow10]. unfold ofnat. rewrite x_ofZ, x_mul. apply f_equal.
    replace (- (1) * (1 - 1)) with 0 by lra. rewrite Rpower_O by lra. cbn. lra.
Qed.
Print Assumptions C124_weighted_line_refuted.
