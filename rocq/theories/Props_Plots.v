(** * C67, C70, C120: magnitude conversion and dot sizes *)
From Coq Require Import Reals Lra Lia ZArith List Bool String Ascii.
From Verif Require Import Base Num XR RList StateM Binning_model BSig_model Plots_model Spec_Plots Props_Coordinates.
Import ListNotations.
Open Scope R_scope.

(** ** C67 *)
Lemma occurs_nil c : ~ occurs c "".
Proof. intros (a & b & E). destruct a; discriminate. Qed.
Lemma occurs_cons c x s : occurs c (String x s) <-> x = c \/ occurs c s.
Proof.
  split.
  - intros (a & b & E). destruct a as [|y a]; cbn in E; injection E as -> E; [left; reflexivity|]. right. exists a, b. exact E.
  - intros [->|(a & b & ->)]; [exists ""%string, s; reflexivity|exists (String x a), b; reflexivity].
Qed.
Lemma ascii_code c d : nat_of_ascii c = nat_of_ascii d -> c = d.
Proof. intros H. rewrite <- (ascii_nat_embedding c), <- (ascii_nat_embedding d), H. reflexivity. Qed.
Lemma lower_letter c x : (97 <= nat_of_ascii c <= 122)%nat ->
  (lower_char x = c <-> x = c \/ nat_of_ascii x = (nat_of_ascii c - 32)%nat).
Proof.
  intros Hc. unfold lower_char. pose proof (nat_ascii_bounded x) as Bx.
  destruct ((65 <=? nat_of_ascii x) && (nat_of_ascii x <=? 90))%nat eqn:E.
  - apply andb_true_iff in E. destruct E as [E1 E2]. apply Nat.leb_le in E1, E2. split.
    + intros H. right. assert (nat_of_ascii (ascii_of_nat (nat_of_ascii x + 32)) = nat_of_ascii c) as F by (rewrite H; reflexivity).
      rewrite nat_ascii_embedding in F by lia. lia.
    + intros [->|H]; [lia|]. apply ascii_code. rewrite nat_ascii_embedding; lia.
  - split; [intros ->; left; reflexivity|]. intros [->|H]; [reflexivity|].
    apply andb_false_iff in E. rewrite !Nat.leb_gt in E. lia.
Qed.
Lemma contains_lower c C s : (97 <= nat_of_ascii c <= 122)%nat -> nat_of_ascii C = (nat_of_ascii c - 32)%nat ->
  contains_char c (lower s) = true <-> occurs c s \/ occurs C s.
Proof.
  intros Hc HC. induction s as [|x s IH]; cbn [lower contains_char].
  - split; [discriminate|]. intros [H|H]; destruct (occurs_nil _ H).
  - rewrite orb_true_iff, IH, !occurs_cons, Ascii.eqb_eq. split.
    + intros [H|[H|H]]; auto. symmetry in H. apply lower_letter in H; [|exact Hc]. destruct H as [->|H]; [auto|].
      right. left. apply ascii_code. lia.
    + intros [[->|H]|[->|H]]; auto; left; symmetry; apply lower_letter; auto.
Qed.
Lemma is_local s : contains_char "l" (lower s) = true <-> local_type s.
Proof. apply contains_lower; cbn; lia. Qed.
Lemma is_w s : contains_char "w" (lower s) = true <-> occurs "w" s \/ occurs "W" s.
Proof. apply contains_lower; cbn; lia. Qed.
Lemma not_local s : contains_char "l" (lower s) = false <-> ~ local_type s.
Proof. rewrite <- is_local. destruct (contains_char "l" (lower s)); split; intros; try congruence; intuition discriminate. Qed.

Theorem C67_local_magnitudes : forall s m, local_type s ->
  apply_edwards s (Fin m) = Some ("Mw_converted"%string, Fin (edwards m)).
Proof.
  intros s m H. unfold apply_edwards. rewrite (proj2 (is_local s) H). unfold lit, square.
  rewrite !x_ofZ, !x_div, !x_mul, !x_add by (apply not_0_IZR; discriminate). do 3 f_equal. unfold edwards. cbn. lra.
Qed.
Print Assumptions C67_local_magnitudes.
Theorem C67_moment_magnitudes : forall T (N : Num T) s (m : T), moment_type s -> apply_edwards s m = Some (s, m).
Proof.
  intros T N s m [H1 H2]. unfold apply_edwards. rewrite (proj2 (not_local s) H1), (proj2 (is_w s) H2). reflexivity.
Qed.
Print Assumptions C67_moment_magnitudes.
(** every other type: no result at all *)
Theorem C67_other_magnitudes : forall T (N : Num T) s (m : T), ~ local_type s -> ~ moment_type s -> apply_edwards s m = None.
Proof.
  intros T N s m H1 H2. unfold apply_edwards. rewrite (proj2 (not_local s) H1).
  destruct (contains_char "w" (lower s)) eqn:E; [|reflexivity]. apply is_w in E. destruct H2. split; assumption.
Qed.
Print Assumptions C67_other_magnitudes.
Theorem C67_idempotent : forall T (N : Num T) s (m : T) s' m',
  apply_edwards s m = Some (s', m') -> apply_edwards s' m' = Some (s', m').
Proof.
  intros T N s m s' m'. unfold apply_edwards at 1. destruct (contains_char "l" (lower s)) eqn:L.
  - intros E. injection E as <- _. reflexivity.
  - destruct (contains_char "w" (lower s)) eqn:W; [|discriminate]. intros E. injection E as <- <-.
    unfold apply_edwards. rewrite L, W. reflexivity.
Qed.
Print Assumptions C67_idempotent.
Theorem C67_increasing : forall s m1 m2 r1 r2, local_type s -> -4 <= m1 -> m1 < m2 ->
  apply_edwards s (Fin m1) = Some r1 -> apply_edwards s (Fin m2) = Some r2 ->
  fst r1 = fst r2 /\ nltb (snd r1) (snd r2) = true.
Proof.
  intros s m1 m2 r1 r2 H H1 H2. rewrite !C67_local_magnitudes by exact H. intros E1 E2. injection E1 as <-. injection E2 as <-.
  split; [reflexivity|]. cbn [fst snd]. rewrite x_ltb. apply rlt_true. unfold edwards.
  assert (0 < (m2 - m1) * (0.472 + 0.0491 * (m1 + m2))) by (apply Rmult_lt_0_compat; lra). nra.
Qed.
Print Assumptions C67_increasing.
Example C67_example : local_type "ML" /\ moment_type "Mw" /\ ~ local_type "mb" /\ ~ moment_type "mb" /\
  edwards 3 = 2.8779 /\ edwards 1 = 1.5411.
Proof.
  assert (D : forall s, contains_char "l" (lower s) = false -> ~ local_type s) by (intros s; apply not_local).
  repeat split; try (apply D; reflexivity).
  - right. exists "M"%string, ""%string. reflexivity.
  - left. exists "M"%string, ""%string. reflexivity.
  - intros [_ H]. apply is_w in H. discriminate.
  - unfold edwards. lra.
  - unfold edwards. lra.
Qed.

(** ** C70 *)
(** x ** p for 0 <= x and 0 < p *)
Definition powR (x p : R) : R := if Req_EM_T x 0 then 0 else Rpower x p.
Lemma npower_fin x p : 0 <= x -> 0 < p -> npower (Fin x) (Fin p) = Fin (powR x p).
Proof.
  intros Hx Hp. unfold npower. change (@zero xr XR) with (Fin 0). rewrite !x_eqb, (proj2 (req_false p 0)) by lra.
  unfold powR. destruct (Req_EM_T x 0) as [->|Hn].
  - rewrite (proj2 (req_true 0 0) eq_refl), x_ltb, (proj2 (rlt_false p 0)) by lra. reflexivity.
  - rewrite (proj2 (req_false x 0) Hn). cbn [nln XR xln]. destruct (Rlt_dec 0 x); [|lra]. reflexivity.
Qed.
Lemma powR_0 p : powR 0 p = 0. Proof. unfold powR. destruct (Req_EM_T 0 0); [reflexivity|lra]. Qed.
Lemma powR_1 p : powR 1 p = 1. Proof. unfold powR. destruct (Req_EM_T 1 0); [lra|]. unfold Rpower. rewrite ln_1, Rmult_0_r, exp_0. reflexivity. Qed.
Lemma powR_pos x p : 0 < x -> 0 < powR x p.
Proof. intros H. unfold powR. destruct (Req_EM_T x 0); [lra|]. apply exp_pos. Qed.
Lemma powR_lt x y p : 0 < p -> 0 <= x -> x < y -> powR x p < powR y p.
Proof.
  intros Hp Hx Hy. destruct (Req_dec x 0) as [->|Hn]; [rewrite powR_0; apply powR_pos; lra|].
  unfold powR. destruct (Req_EM_T x 0); [lra|]. destruct (Req_EM_T y 0); [lra|].
  unfold Rpower. apply exp_increasing. apply Rmult_lt_compat_l; [exact Hp|]. apply ln_increasing; lra.
Qed.
Lemma powR_inv x p : 0 <= x -> 0 < p -> powR (powR x p) (1 / p) = x.
Proof.
  intros Hx Hp. unfold powR at 2. destruct (Req_EM_T x 0) as [->|Hn]; [apply powR_0|].
  unfold powR. destruct (Req_EM_T (Rpower x p) 0) as [E|_].
  - exfalso. pose proof (exp_pos (p * ln x)). unfold Rpower in E. lra.
  - rewrite Rpower_mult. replace (p * (1 / p)) with 1 by (field; lra). apply Rpower_1. lra.
Qed.

Definition size_of (lo hi smallest largest p m : R) : R := powR ((m - lo) / (hi - lo)) p * (largest - smallest) + smallest.
(** the largest size that is used *)
Definition largest_used (smallest largest : R) : R := if Rle_dec largest smallest then 50 * Rmax smallest 2 else largest.
Lemma largest_used_gt s l : s < largest_used s l.
Proof. unfold largest_used, Rmax. destruct (Rle_dec l s); [destruct (Rle_dec s 2)|]; lra. Qed.

Lemma largest_model smallest largest :
  (if nleb (Fin largest) (Fin smallest) then nmul (ofZ 50) (max_py (Fin smallest) two) else Fin largest)
  = Fin (largest_used smallest largest).
Proof.
  rewrite x_leb. unfold largest_used, rle, max_py. change (@two xr XR) with (Fin 2). rewrite x_ltb, x_ofZ. unfold rlt, Rmax.
  destruct (Rle_dec largest smallest); [|reflexivity].
  destruct (Rlt_dec smallest 2), (Rle_dec smallest 2); rewrite x_mul; apply f_equal; lra.
Qed.
Lemma extremes (m0 : R) (ms : list R) : exists lo hi,
  amin (Fin m0) (map Fin ms) = Fin lo /\ amax (Fin m0) (map Fin ms) = Fin hi /\ In lo (m0 :: ms) /\ In hi (m0 :: ms) /\
  (forall m, In m (m0 :: ms) -> lo <= m <= hi).
Proof.
  destruct (amin_fin m0 ms) as (lo & E1 & A1 & A2 & A3). destruct (amax_fin m0 ms) as (hi & E2 & B1 & B2 & B3).
  exists lo, hi. repeat split; auto; destruct H as [<-|H]; auto; rewrite Forall_forall in *; auto.
Qed.
Lemma dot_size_fin mags smallest largest p : 0 < p -> mags <> [] ->
  (exists m m', In m mags /\ In m' mags /\ m <> m') ->
  exists lo hi, In lo mags /\ In hi mags /\ lo < hi /\ (forall m, In m mags -> lo <= m <= hi) /\
    dot_size (map Fin mags) (Fin smallest) (Fin largest) (Fin p)
    = Ok (map Fin (map (size_of lo hi smallest (largest_used smallest largest) p) mags)).
Proof.
  intros Hp Hne (m & m' & H1 & H2 & H3). unfold dot_size. rewrite largest_model. destruct mags as [|m0 ms]; [congruence|].
  change (map Fin (m0 :: ms)) with (Fin m0 :: map Fin ms) at 1. cbv beta iota. destruct (extremes m0 ms) as (lo & hi & -> & -> & A & B & C). exists lo, hi.
  assert (L : lo < hi) by (pose proof (C m H1); pose proof (C m' H2); lra).
  repeat split; auto; try (apply C; assumption). apply f_equal.
  rewrite !map_map. apply map_ext_in. intros x Hx. pose proof (C x Hx).
  rewrite !x_sub, x_div by lra. rewrite npower_fin, x_mul, x_add; [reflexivity| |exact Hp].
  apply Rmult_le_pos; [lra|]. left. apply Rinv_0_lt_compat. lra.
Qed.
(** the sizes lie between the bounds, grow strictly with the magnitude and reach both bounds *)
Theorem C70_dot_size : forall mags smallest largest p, 0 < p -> smallest < largest ->
  (exists m m', In m mags /\ In m' mags /\ m <> m') ->
  exists size : R -> R,
    dot_size (map Fin mags) (Fin smallest) (Fin largest) (Fin p) = Ok (map (fun m => Fin (size m)) mags) /\
    (forall m, In m mags -> smallest <= size m <= largest) /\
    (forall m m', In m mags -> In m' mags -> m < m' -> size m < size m') /\
    (forall m, In m mags -> (forall m', In m' mags -> m <= m') -> size m = smallest) /\
    (forall m, In m mags -> (forall m', In m' mags -> m' <= m) -> size m = largest).
Proof.
  intros mags smallest largest p Hp Hl Hd. assert (Hne : mags <> []) by (destruct Hd as (m & _ & H & _); intros ->; destruct H).
  destruct (dot_size_fin mags smallest largest p Hp Hne Hd) as (lo & hi & A & B & L & C & E).
  assert (Hu : largest_used smallest largest = largest) by (unfold largest_used; destruct (Rle_dec largest smallest); [lra|reflexivity]).
  rewrite Hu in E. exists (size_of lo hi smallest largest p). rewrite map_map in E. split; [exact E|].
  assert (R0 : size_of lo hi smallest largest p lo = smallest).
  { unfold size_of. replace ((lo - lo) / (hi - lo)) with 0 by (field; lra). rewrite powR_0. lra. }
  assert (R1 : size_of lo hi smallest largest p hi = largest).
  { unfold size_of. replace ((hi - lo) / (hi - lo)) with 1 by (field; lra). rewrite powR_1. lra. }
  assert (I : forall m m', In m mags -> In m' mags -> m < m' -> size_of lo hi smallest largest p m < size_of lo hi smallest largest p m').
  { intros m m' Hm Hm' Hlt. unfold size_of. apply Rplus_lt_compat_r. apply Rmult_lt_compat_r; [lra|]. pose proof (C m Hm).
    apply powR_lt; [exact Hp| |].
    - apply Rmult_le_pos; [lra|]. left. apply Rinv_0_lt_compat. lra.
    - apply Rmult_lt_compat_r; [apply Rinv_0_lt_compat; lra|lra]. }
  split; [|split; [exact I|split]].
  - intros m Hm. pose proof (C m Hm) as Hc. split.
    + destruct (Req_dec m lo) as [->|Hn]; [lra|]. pose proof (I lo m A Hm). lra.
    + destruct (Req_dec m hi) as [->|Hn]; [lra|]. pose proof (I m hi Hm B). lra.
  - intros m Hm Hall. replace m with lo; [exact R0|]. pose proof (C m Hm). pose proof (Hall lo A). lra.
  - intros m Hm Hall. replace m with hi; [exact R1|]. pose proof (C m Hm). pose proof (Hall hi B). lra.
Qed.
Print Assumptions C70_dot_size.
(** bounds in the wrong order: fifty times the smallest size, at least a hundred, is the largest one *)
Theorem C70_bounds_replaced : forall mags smallest largest p, largest <= smallest ->
  dot_size (map Fin mags) (Fin smallest) (Fin largest) (Fin p)
  = dot_size (map Fin mags) (Fin smallest) (Fin (50 * Rmax smallest 2)) (Fin p).
Proof.
  intros mags smallest largest p H. unfold dot_size. rewrite !largest_model.
  replace (largest_used smallest (50 * Rmax smallest 2)) with (largest_used smallest largest); [reflexivity|].
  unfold largest_used, Rmax. destruct (Rle_dec largest smallest); [|contradiction].
  destruct (Rle_dec smallest 2); destruct (Rle_dec _ smallest); lra.
Qed.
Print Assumptions C70_bounds_replaced.
(** power 0: all dots have the largest size *)
Theorem C70_power_zero : forall mags smallest largest, smallest < largest -> mags <> [] ->
  dot_size (map Fin mags) (Fin smallest) (Fin largest) (Fin 0) = Ok (map (fun _ => Fin largest) mags).
Proof.
  intros mags smallest largest H Hne. unfold dot_size. rewrite largest_model.
  assert (Hu : largest_used smallest largest = largest) by (unfold largest_used; destruct (Rle_dec largest smallest); [lra|reflexivity]).
  rewrite Hu. destruct mags as [|m0 ms]; [congruence|]. change (map Fin (m0 :: ms)) with (Fin m0 :: map Fin ms) at 1. cbv beta iota.
  apply f_equal. rewrite map_map. apply map_ext. intros m. unfold npower. change (@zero xr XR) with (Fin 0). rewrite x_eqb, (proj2 (req_true 0 0) eq_refl).
  change (@one xr XR) with (Fin 1). rewrite x_sub, x_mul, x_add. apply f_equal. lra.
Qed.
Print Assumptions C70_power_zero.

Lemma pymin_fin x l : exists m, pymin (map Fin (x :: l)) = Ok (Fin m) /\ In m (x :: l) /\ forall y, In y (x :: l) -> m <= y.
Proof.
  cbn [map pymin]. revert x. induction l as [|y l IH]; intros x; cbn [map fold_left].
  - exists x. repeat split; [left; reflexivity|]. intros y [<-|[]]. lra.
  - rewrite x_ltb. destruct (rlt y x) eqn:E.
    + apply rlt_true in E. destruct (IH y) as (m & Em & A & B). exists m. split; [exact Em|]. split; [right; exact A|].
      intros z [<-|Hz]; [pose proof (B y (or_introl eq_refl)); lra|auto].
    + apply rlt_false in E. destruct (IH x) as (m & Em & A & B). exists m. split; [exact Em|].
      split; [destruct A; [left; assumption|right; right; assumption]|]. intros z [<-|[<-|Hz]].
      * apply B. left. reflexivity.
      * pose proof (B x (or_introl eq_refl)). lra.
      * apply B. right. exact Hz.
Qed.
Lemma pymax_fin x l : exists m, pymax (map Fin (x :: l)) = Ok (Fin m) /\ In m (x :: l) /\ forall y, In y (x :: l) -> y <= m.
Proof.
  cbn [map pymax]. revert x. induction l as [|y l IH]; intros x; cbn [map fold_left].
  - exists x. repeat split; [left; reflexivity|]. intros y [<-|[]]. lra.
  - rewrite x_ltb. destruct (rlt x y) eqn:E.
    + apply rlt_true in E. destruct (IH y) as (m & Em & A & B). exists m. split; [exact Em|]. split; [right; exact A|].
      intros z [<-|Hz]; [pose proof (B y (or_introl eq_refl)); lra|auto].
    + apply rlt_false in E. destruct (IH x) as (m & Em & A & B). exists m. split; [exact Em|].
      split; [destruct A; [left; assumption|right; right; assumption]|]. intros z [<-|[<-|Hz]].
      * apply B. left. reflexivity.
      * pose proof (B x (or_introl eq_refl)). lra.
      * apply B. right. exact Hz.
Qed.
(** the legend's inverse gives the magnitudes back *)
Theorem C70_reverse_dot_size : forall mags smallest largest p lo hi sizes, 0 < p ->
  lo < hi -> In lo mags -> In hi mags -> (forall m, In m mags -> lo <= m <= hi) ->
  dot_size (map Fin mags) (Fin smallest) (Fin largest) (Fin p) = Ok sizes ->
  reverse_dot_size sizes (Fin lo) (Fin hi) (Fin p) = Ok (map Fin mags).
Proof.
  intros mags smallest largest p lo hi sizes Hp Hl Hlo Hhi Hc E.
  assert (Hne : mags <> []) by (intros ->; destruct Hlo).
  destruct (dot_size_fin mags smallest largest p Hp Hne) as (lo' & hi' & A & B & L & C & E').
  { exists lo, hi. repeat split; auto. lra. }
  assert (lo' = lo) as -> by (pose proof (C lo Hlo); pose proof (Hc lo' A); lra).
  assert (hi' = hi) as -> by (pose proof (C hi Hhi); pose proof (Hc hi' B); lra).
  rewrite E in E'. injection E' as ->. pose proof (largest_used_gt smallest largest) as G. set (lu := largest_used smallest largest) in *.
  set (f := size_of lo hi smallest lu p).
  assert (F0 : f lo = smallest). { unfold f, size_of. replace ((lo - lo) / (hi - lo)) with 0 by (field; lra). rewrite powR_0. lra. }
  assert (F1 : f hi = lu). { unfold f, size_of. replace ((hi - lo) / (hi - lo)) with 1 by (field; lra). rewrite powR_1. lra. }
  assert (Fn : forall m, In m mags -> 0 <= (m - lo) / (hi - lo) <= 1).
  { intros m Hm. pose proof (C m Hm). split; [apply Rmult_le_pos; [lra|left; apply Rinv_0_lt_compat; lra]|].
    apply (Rmult_le_reg_r (hi - lo)); [lra|]. replace ((m - lo) / (hi - lo) * (hi - lo)) with (m - lo) by (field; lra). lra. }
  assert (Fr : forall m, In m mags -> smallest <= f m <= lu).
  { intros m Hm. specialize (Fn m Hm). unfold f, size_of.
    assert (0 <= powR ((m - lo) / (hi - lo)) p <= 1).
    { split.
      - destruct (Req_dec ((m - lo) / (hi - lo)) 0) as [->|Hn]; [rewrite powR_0; lra|]. left. apply powR_pos. lra.
      - destruct (Req_dec ((m - lo) / (hi - lo)) 1) as [->|Hn]; [rewrite powR_1; lra|]. rewrite <- (powR_1 p). left. apply powR_lt; lra. }
    split; nra. }
  unfold reverse_dot_size. change (@zero xr XR) with (Fin 0). rewrite x_eqb, (proj2 (req_false p 0)) by lra.
  destruct mags as [|m0 ms]; [congruence|]. rewrite (map_cons f m0 ms).
  destruct (pymin_fin (f m0) (map f ms)) as (s0 & -> & S1 & S2). destruct (pymax_fin (f m0) (map f ms)) as (s1 & -> & S3 & S4).
  rewrite <- (map_cons f m0 ms) in *. cbn [rbind].
  assert (s0 = smallest) as ->.
  { apply in_map_iff in S1. destruct S1 as (m & <- & Hm). pose proof (Fr m Hm). pose proof (S2 (f lo) (in_map f _ _ Hlo)). lra. }
  assert (s1 = lu) as ->.
  { apply in_map_iff in S3. destruct S3 as (m & <- & Hm). pose proof (Fr m Hm). pose proof (S4 (f hi) (in_map f _ _ Hhi)). lra. }
  apply f_equal. rewrite !map_map. apply map_ext_in. intros m Hm. pose proof (Fr m Hm). pose proof (Fn m Hm) as Hn.
  change (@one xr XR) with (Fin 1). rewrite !x_sub, !x_div by lra.
  assert (Hs : (f m - smallest) / (lu - smallest) = powR ((m - lo) / (hi - lo)) p) by (unfold f, size_of; field; lra).
  rewrite Hs, npower_fin, powR_inv, x_mul, x_add; [|lra|lra| |].
  - apply f_equal. field. lra.
  - rewrite <- Hs. apply Rmult_le_pos; [lra|]. left. apply Rinv_0_lt_compat. lra.
  - apply Rmult_lt_0_compat; [lra|]. apply Rinv_0_lt_compat. exact Hp.
Qed.
Print Assumptions C70_reverse_dot_size.
Theorem C70_reverse_power_zero : forall T (N : Num T) sizes (lo hi p : T), neqb p zero = true ->
  reverse_dot_size sizes lo hi p = Err ValueError.
Proof. intros T N sizes lo hi p H. unfold reverse_dot_size. rewrite H. reflexivity. Qed.
Print Assumptions C70_reverse_power_zero.
Example C70_example : 0 < 2 /\ 10 < 200 /\ (exists m m', In m [1; 2; 3] /\ In m' [1; 2; 3] /\ m <> m') /\
  size_of 1 5 10 200 2 2 = 21.875.
Proof.
  repeat split; try lra.
  - exists 1, 2. repeat split; [left; reflexivity|right; left; reflexivity|lra].
  - unfold size_of, powR. destruct (Req_EM_T ((2 - 1) / (5 - 1)) 0); [lra|].
    assert (E : Rpower ((2 - 1) / (5 - 1)) 2 = ((2 - 1) / (5 - 1)) ^ 2) by (rewrite <- Rpower_pow by lra; f_equal; cbn; lra). rewrite E. lra.
Qed.

(** ** C120: equal magnitudes *)
Theorem C120_equal_magnitudes_refuted : forall m n smallest largest p, p <> 0 ->
  dot_size (repeat (Fin m) (S n)) (Fin smallest) (Fin largest) (Fin p) = Ok (repeat NaN (S n)).
Proof.
  intros m n smallest largest p Hp. unfold dot_size. rewrite largest_model. cbn [repeat].
  assert (E : forall k, amin (Fin m) (repeat (Fin m) k) = Fin m /\ amax (Fin m) (repeat (Fin m) k) = Fin m).
  { unfold amin, amax. induction k as [|k IH]; [split; reflexivity|]. cbn [repeat fold_left].
    unfold nmin2 at 2, nmax2 at 2. cbn [nisnan XR]. rewrite x_ltb, (proj2 (rlt_false m m)) by lra. exact IH. }
  destruct (E n) as [-> ->]. apply f_equal.
  assert (V : nadd (nmul (npower (ndiv (nsub (Fin m) (Fin m)) (nsub (Fin m) (Fin m))) (Fin p)) (nsub (Fin (largest_used smallest largest)) (Fin smallest))) (Fin smallest) = NaN).
  { rewrite !x_sub. replace (m - m) with 0 by lra. replace (ndiv (Fin 0) (Fin 0)) with NaN.
    - unfold npower. change (@zero xr XR) with (Fin 0). rewrite x_eqb, (proj2 (req_false p 0)) by lra. reflexivity.
    - cbn [ndiv XR xdiv]. destruct (Req_EM_T 0 0); [|lra]. cbn [xsgn]. destruct (Rlt_dec 0 0); [lra|]. reflexivity. }
  cbn [map]. rewrite V. f_equal. induction n as [|n IH]; [reflexivity|]. cbn [repeat map]. rewrite V. f_equal. apply IH.
Qed.
Print Assumptions C120_equal_magnitudes_refuted.
