(** * C50: haversine *)
From Coq Require Import ZArith List Bool Lia Reals Lra.
From Verif Require Import Base Num XR Decluster_model Spec_Sphere.
Import ListNotations.
Open Scope R_scope.

Lemma sphere_unit lon lat : dot3 (sphere lon lat) (sphere lon lat) = 1.
Proof. unfold sphere, dot3. pose proof (sin2_cos2 (rad lon)) as A. pose proof (sin2_cos2 (rad lat)) as B. unfold Rsqr in *. nra. Qed.
Lemma dot3_sym u v : dot3 u v = dot3 v u.
Proof. destruct u as [[x y] z], v as [[x' y'] z']. unfold dot3. ring. Qed.
(** Gram determinant of three unit vectors *)
Lemma gram u v w : dot3 u u = 1 -> dot3 v v = 1 -> dot3 w w = 1 ->
  (dot3 u w - dot3 u v * dot3 v w) * (dot3 u w - dot3 u v * dot3 v w) <= (1 - dot3 u v * dot3 u v) * (1 - dot3 v w * dot3 v w).
Proof.
  destruct u as [[a b] c], v as [[d e] f], w as [[g h] i]. unfold dot3. intros U V W.
  assert (0 <= Rsqr (a * (e * i - f * h) - b * (d * i - f * g) + c * (d * h - e * g))) by apply Rle_0_sqr. unfold Rsqr in H.
  assert (E : (a * (e * i - f * h) - b * (d * i - f * g) + c * (d * h - e * g)) * (a * (e * i - f * h) - b * (d * i - f * g) + c * (d * h - e * g))
    = (a*a+b*b+c*c) * (d*d+e*e+f*f) * (g*g+h*h+i*i) + 2 * (a*d+b*e+c*f) * (d*g+e*h+f*i) * (a*g+b*h+c*i)
      - (a*a+b*b+c*c) * ((d*g+e*h+f*i)*(d*g+e*h+f*i)) - (d*d+e*e+f*f) * ((a*g+b*h+c*i)*(a*g+b*h+c*i)) - (g*g+h*h+i*i) * ((a*d+b*e+c*f)*(a*d+b*e+c*f))) by ring.
  rewrite U, V, W in E. rewrite E in H. lra.
Qed.
Lemma dot3_bound u v : dot3 u u = 1 -> dot3 v v = 1 -> -1 <= dot3 u v <= 1.
Proof.
  destruct u as [[a b] c], v as [[d e] f]. unfold dot3. intros U V.
  pose proof (Rle_0_sqr (a - d)). pose proof (Rle_0_sqr (b - e)). pose proof (Rle_0_sqr (c - f)). pose proof (Rle_0_sqr (a + d)). pose proof (Rle_0_sqr (b + e)). pose proof (Rle_0_sqr (c + f)). unfold Rsqr in *. split; lra.
Qed.

Definition aval (lon lat tlon tlat : R) : R :=
  sin ((rad lat - rad tlat) / 2) * sin ((rad lat - rad tlat) / 2) + cos (rad lat) * cos (rad tlat) * (sin ((rad lon - rad tlon) / 2) * sin ((rad lon - rad tlon) / 2)).
Lemma half_angle x : sin (x / 2) * sin (x / 2) = (1 - cos x) / 2.
Proof. pose proof (cos_2a_sin (x / 2)) as H. replace (2 * (x / 2)) with x in H by lra. rewrite H. lra. Qed.
Lemma aval_dot lon lat tlon tlat : 1 - 2 * aval lon lat tlon tlat = dot3 (sphere lon lat) (sphere tlon tlat).
Proof. unfold aval. rewrite !half_angle. rewrite !cos_minus. unfold sphere, dot3. field. Qed.
Lemma aval_bounds lon lat tlon tlat : 0 <= aval lon lat tlon tlat <= 1.
Proof. pose proof (dot3_bound _ _ (sphere_unit lon lat) (sphere_unit tlon tlat)) as H. rewrite <- aval_dot in H. lra. Qed.

Lemma atan2_half a : 0 <= a <= 1 -> 0 <= 2 * Ratan2 (sqrt a) (sqrt (1 - a)) <= PI /\ cos (2 * Ratan2 (sqrt a) (sqrt (1 - a))) = 1 - 2 * a.
Proof.
  intros [H0 H1]. pose proof PI_RGT_0 as HP. unfold Ratan2. destruct (Rlt_dec 0 (sqrt (1 - a))) as [Hc|Hc].
  - assert (Ha : a < 1). { destruct (Rle_lt_or_eq_dec a 1 H1) as [H|H]; [exact H|]. rewrite H, Rminus_diag_eq, sqrt_0 in Hc by reflexivity. lra. }
    set (q := sqrt a / sqrt (1 - a)). assert (Hq : 0 <= q) by (apply Rmult_le_pos; [apply sqrt_pos|left; apply Rinv_0_lt_compat; exact Hc]).
    assert (Hat : 0 <= atan q < PI / 2).
    { split; [|apply atan_bound]. destruct Hq as [Hq|Hq]; [left; rewrite <- atan_0; apply atan_increasing; exact Hq|rewrite <- Hq, atan_0; lra]. }
    split; [lra|]. rewrite cos_2a_sin, sin_atan.
    assert (E : q² = a / (1 - a)). { unfold q. rewrite Rsqr_div by lra. rewrite !Rsqr_sqrt by lra. reflexivity. }
    assert (Es : (sqrt (1 + q²))² = 1 + q²) by (apply Rsqr_sqrt; pose proof (Rle_0_sqr q); lra).
    assert (Hs : 0 < sqrt (1 + q²)) by (apply sqrt_lt_R0; pose proof (Rle_0_sqr q); lra).
    replace (2 * (q / sqrt (1 + q²)) * (q / sqrt (1 + q²))) with (2 * (q² / (sqrt (1 + q²))²)) by (unfold Rsqr; field; apply Rgt_not_eq; exact Hs).
    rewrite Es, E. field. split; [|lra]. replace (1 - a + a) with 1 by ring. lra.
  - assert (Ha : a = 1). { destruct (Rle_lt_or_eq_dec a 1 H1) as [H|H]; [|exact H]. exfalso. apply Hc. apply sqrt_lt_R0. lra. }
    subst a. rewrite Rminus_diag_eq, sqrt_0, sqrt_1 by reflexivity. destruct (Rlt_dec 0 0); [lra|]. destruct (Rlt_dec 0 1); [|lra].
    replace (2 * (PI / 2)) with PI by lra. rewrite cos_PI. lra.
Qed.
Lemma haversine_real lon lat tlon tlat :
  haversine (Fin lon) (Fin lat) (Fin tlon) (Fin tlat) = Fin (6371.227 * (2 * Ratan2 (sqrt (aval lon lat tlon tlat)) (sqrt (1 - aval lon lat tlon tlat)))).
Proof.
  unfold haversine. change (npi : xr) with (Fin PI). rewrite x_ofZ, x_div by lra. rewrite !x_mul, !x_sub, !x_two, !x_div by lra.
  change (nsin : xr -> xr) with (xtrig sin). change (ncos : xr -> xr) with (xtrig cos). cbn [xtrig]. unfold square. rewrite !x_mul, x_add, x_one, x_sub.
  fold (rad lon) (rad lat) (rad tlon) (rad tlat). fold (aval lon lat tlon tlat). pose proof (aval_bounds lon lat tlon tlat).
  rewrite !x_sqrt by lra. change (natan2 : xr -> xr -> xr) with xatan2. cbn [xatan2]. unfold earth_rad. rewrite x_lit, !x_mul. f_equal. cbn. lra.
Qed.
(** For all coordinates haversine returns a number: the radius times the angle between the two
    points on the sphere (the great-circle distance). *)
Theorem C50_great_circle : forall lon lat tlon tlat, exists t,
  is_angle t (sphere lon lat) (sphere tlon tlat) /\ haversine (Fin lon) (Fin lat) (Fin tlon) (Fin tlat) = Fin (6371.227 * t).
Proof.
  intros lon lat tlon tlat. destruct (atan2_half _ (aval_bounds lon lat tlon tlat)) as [B C]. eexists. split; [|apply haversine_real].
  split; [exact B|]. rewrite C. apply aval_dot.
Qed.
Print Assumptions C50_great_circle.
Lemma angle_unique t t' u v : is_angle t u v -> is_angle t' u v -> t = t'.
Proof. intros [B C] [B' C']. rewrite <- (acos_cos t B), <- (acos_cos t' B'), C, C'. reflexivity. Qed.
Definition distance (lon lat tlon tlat : R) : R := match haversine (Fin lon) (Fin lat) (Fin tlon) (Fin tlat) with Fin d => d | _ => 0 end.
Lemma distance_fin lon lat tlon tlat : haversine (Fin lon) (Fin lat) (Fin tlon) (Fin tlat) = Fin (distance lon lat tlon tlat).
Proof. unfold distance. rewrite haversine_real. reflexivity. Qed.
Lemma distance_angle lon lat tlon tlat : exists t, is_angle t (sphere lon lat) (sphere tlon tlat) /\ distance lon lat tlon tlat = 6371.227 * t.
Proof. destruct (C50_great_circle lon lat tlon tlat) as (t & Ht & E). exists t. split; [exact Ht|]. unfold distance. rewrite E. reflexivity. Qed.
(** symmetric, between 0 and half the circumference *)
Theorem C50_symmetric_bounded : forall lon lat tlon tlat, exists d,
  haversine (Fin lon) (Fin lat) (Fin tlon) (Fin tlat) = Fin d /\ haversine (Fin tlon) (Fin tlat) (Fin lon) (Fin lat) = Fin d /\ 0 <= d <= PI * 6371.227.
Proof.
  intros lon lat tlon tlat. destruct (C50_great_circle lon lat tlon tlat) as (t & Ht & E), (C50_great_circle tlon tlat lon lat) as (t' & Ht' & E').
  assert (Et : t = t'). { apply (angle_unique t t' _ _ Ht). destruct Ht' as [B C]. split; [exact B|]. rewrite C. apply dot3_sym. }
  exists (6371.227 * t). rewrite E, E', Et. repeat split; try reflexivity; rewrite <- Et; destruct Ht as [B _]; nra.
Qed.
Print Assumptions C50_symmetric_bounded.
(** zero exactly for the same point of the sphere *)
Theorem C50_zero_iff_same_point : forall lon lat tlon tlat,
  haversine (Fin lon) (Fin lat) (Fin tlon) (Fin tlat) = Fin 0 <-> sphere lon lat = sphere tlon tlat.
Proof.
  intros lon lat tlon tlat. destruct (C50_great_circle lon lat tlon tlat) as (t & [B C] & ->). pose proof (sphere_unit lon lat) as U. pose proof (sphere_unit tlon tlat) as V. split.
  - intros E. injection E as E. assert (t = 0) by lra. subst t. rewrite cos_0 in C.
    destruct (sphere lon lat) as [[x y] z], (sphere tlon tlat) as [[x' y'] z']. unfold dot3 in *.
    assert (S : Rsqr (x - x') + Rsqr (y - y') + Rsqr (z - z') = 0) by (unfold Rsqr; nra).
    pose proof (Rle_0_sqr (x - x')). pose proof (Rle_0_sqr (y - y')). pose proof (Rle_0_sqr (z - z')).
    assert (x - x' = 0) by (apply Rsqr_0_uniq; lra). assert (y - y' = 0) by (apply Rsqr_0_uniq; lra). assert (z - z' = 0) by (apply Rsqr_0_uniq; lra).
    f_equal; [f_equal|]; lra.
  - intros E. rewrite E, V in C. rewrite <- (acos_cos t B), C, acos_1. f_equal. lra.
Qed.
Print Assumptions C50_zero_iff_same_point.
Corollary distance_self lon lat : distance lon lat lon lat = 0.
Proof. unfold distance. rewrite (proj2 (C50_zero_iff_same_point lon lat lon lat) eq_refl). reflexivity. Qed.
(** the triangle inequality *)
Theorem C50_triangle : forall lon1 lat1 lon2 lat2 lon3 lat3, exists d12 d23 d13,
  haversine (Fin lon1) (Fin lat1) (Fin lon2) (Fin lat2) = Fin d12 /\ haversine (Fin lon2) (Fin lat2) (Fin lon3) (Fin lat3) = Fin d23 /\
  haversine (Fin lon1) (Fin lat1) (Fin lon3) (Fin lat3) = Fin d13 /\ d13 <= d12 + d23.
Proof.
  intros lon1 lat1 lon2 lat2 lon3 lat3.
  destruct (C50_great_circle lon1 lat1 lon2 lat2) as (a & [Ba Ca] & ->), (C50_great_circle lon2 lat2 lon3 lat3) as (b & [Bb Cb] & ->), (C50_great_circle lon1 lat1 lon3 lat3) as (c & [Bc Cc] & ->).
  eexists _, _, _. repeat split; try reflexivity. enough (c <= a + b) by lra.
  destruct (Rle_dec PI (a + b)) as [H|H]; [lra|]. apply cos_decr_0; try lra.
  all: enough (cos (a + b) <= cos c) by lra.
  pose proof (gram (sphere lon1 lat1) (sphere lon2 lat2) (sphere lon3 lat3) (sphere_unit _ _) (sphere_unit _ _) (sphere_unit _ _)) as G. rewrite <- Ca, <- Cb, <- Cc in G.
  rewrite cos_plus. pose proof (sin_ge_0 a) as Sa. pose proof (sin_ge_0 b) as Sb. specialize (Sa ltac:(lra) ltac:(lra)). specialize (Sb ltac:(lra) ltac:(lra)).
  assert (E1 : 1 - cos a * cos a = sin a * sin a) by (pose proof (sin2_cos2 a) as K; unfold Rsqr in K; lra).
  assert (E2 : 1 - cos b * cos b = sin b * sin b) by (pose proof (sin2_cos2 b) as K; unfold Rsqr in K; lra).
  rewrite E1, E2 in G. assert (0 <= sin a * sin b) by (apply Rmult_le_pos; assumption).
  assert (Rabs (cos c - cos a * cos b) <= Rabs (sin a * sin b)) by (apply Rsqr_le_abs_0; unfold Rsqr; lra).
  rewrite (Rabs_right (sin a * sin b)) in H1 by lra. pose proof (Rle_abs (- (cos c - cos a * cos b))) as K. rewrite Rabs_Ropp in K. lra.
Qed.
Print Assumptions C50_triangle.
(** concrete points: the poles are half a circumference apart, one degree on a meridian *)
Example C50_poles : haversine (Fin 0) (Fin (-90)) (Fin 0) (Fin 90) = Fin (6371.227 * PI).
Proof.
  destruct (C50_great_circle 0 (-90) 0 90) as (t & [B C] & ->). do 2 f_equal. rewrite <- (acos_cos t B), C.
  unfold sphere, dot3, rad. replace (PI / 180 * -90) with (- (PI / 2)) by lra. replace (PI / 180 * 90) with (PI / 2) by lra. rewrite sin_neg, cos_neg, sin_PI2, cos_PI2.
  replace (0 * _ * _ + _ + _) with (Ropp 1) by ring. rewrite acos_opp, acos_1. lra.
Qed.
