(** * C63, C64, C71, C117-C119: coordinates, bounding boxes and the polygon filter *)
From Coq Require Import ZArith List Bool String Reals Lra.
From Verif Require Import Base Num XR Dict Utils_model Spec_Utils.
Import ListNotations.
Open Scope R_scope.

Section Coordinates.
  Context {CRS : Type}.
  (** a real projection; without an altitude it returns none *)
  Variable pr : CRS -> CRS -> R -> R -> option R -> R * R * option R.
  Definition finz (z : option R) : option xr := option_map Fin z.
  Definition finp (p : R * R * option R) : xr * xr * option xr := let '(x, y, z) := p in (Fin x, Fin y, finz z).
  (** the projection used by the program: exact on numbers, arbitrary elsewhere *)
  Definition computes (project : CRS -> CRS -> xr -> xr -> option xr -> xr * xr * option xr) : Prop :=
    forall a b x y z, project a b (Fin x) (Fin y) (finz z) = finp (pr a b x y z).
  (** it keeps the absence or presence of the altitude *)
  Definition keeps_altitude : Prop := forall a b x y z, snd (pr a b x y z) = None <-> z = None.
  Definition inverse_at (a b : CRS) (p : R * R * option R) : Prop :=
    let '(x, y, z) := p in let '(x', y', z') := pr a b x y z in pr b a x' y' z' = (x, y, z).
  Variable project : CRS -> CRS -> xr -> xr -> option xr -> xr * xr * option xr.
  Hypothesis Hp : computes project.
  Hypothesis Hk : keeps_altitude.
  Definition tr_at (re rn ra : R) (local ext : CRS) : transformer := mktr (Fin re) (Fin rn) (Fin ra) local ext.

  Lemma to_local_val re rn ra local ext x y z : 
    to_local_coords project (tr_at re rn ra local ext) (Fin x) (Fin y) (finz z) =
    (let '(e, n, a) := pr ext local x y z in finp (e - re, n - rn, option_map (fun a => a - ra) a)).
  Proof using Hp Hk.
    unfold to_local_coords. cbn [external_proj local_proj tr_at]. rewrite Hp. pose proof (Hk ext local x y z) as K. destruct (pr ext local x y z) as [[e n] a]. cbn [finp snd ref_easting ref_northing ref_altitude tr_at] in *.
    destruct z, a; cbn in *; try reflexivity; exfalso; assert (Some r = None) by (apply K; reflexivity); discriminate.
  Qed.
  Lemma from_local_val re rn ra local ext x y z : 
    from_local_coords project (tr_at re rn ra local ext) (Fin x) (Fin y) (finz z) = finp (pr local ext (x + re) (y + rn) (option_map (fun a => a + ra) z)).
  Proof using Hp Hk.
    unfold from_local_coords. cbn [external_proj local_proj ref_easting ref_northing ref_altitude tr_at].
    pose proof (Hp local ext (x + re) (y + rn) (option_map (fun a => a + ra) z)) as E. pose proof (Hk local ext (x + re) (y + rn) (option_map (fun a => a + ra) z)) as K.
    destruct z as [z|]; cbn [finz option_map] in *; cbn [nadd XR xadd] in *; rewrite E; destruct (pr _ _ _ _ _) as [[a b] c]; cbn [finp snd] in *; [reflexivity|].
    destruct c; [|reflexivity]. exfalso. assert (Some r = None) by (apply K; reflexivity). discriminate.
  Qed.
  (** ** C63: both directions are inverse to each other *)
  Theorem C63_external_round_trip re rn ra local ext x y z : inverse_at ext local (x, y, z) ->
    let '(e, n, a) := to_local_coords project (tr_at re rn ra local ext) (Fin x) (Fin y) (finz z) in
    from_local_coords project (tr_at re rn ra local ext) e n a = (Fin x, Fin y, finz z).
  Proof using Hp Hk.
    intros Hi. rewrite to_local_val. unfold inverse_at in Hi. destruct (pr ext local x y z) as [[e n] a]. cbn [finp].
    rewrite from_local_val. replace (e - re + re) with e by lra. replace (n - rn + rn) with n by lra.
    replace (option_map (fun a0 => a0 + ra) (option_map (fun a0 => a0 - ra) a)) with a by (destruct a; cbn; [f_equal; lra|reflexivity]).
    rewrite Hi. reflexivity.
  Qed.
  Theorem C63_local_round_trip re rn ra local ext x y z : inverse_at local ext (x + re, y + rn, option_map (fun a => a + ra) z) ->
    let '(e, n, a) := from_local_coords project (tr_at re rn ra local ext) (Fin x) (Fin y) (finz z) in
    to_local_coords project (tr_at re rn ra local ext) e n a = (Fin x, Fin y, finz z).
  Proof using Hp Hk.
    intros Hi. rewrite from_local_val. unfold inverse_at in Hi. destruct (pr local ext _ _ _) as [[e n] a]. cbn [finp].
    rewrite to_local_val, Hi. replace (x + re - re) with x by lra. replace (y + rn - rn) with y by lra.
    replace (option_map (fun a0 => a0 - ra) (option_map (fun a0 => a0 + ra) z)) with z by (destruct z; cbn; [f_equal; lra|reflexivity]).
    reflexivity.
  Qed.
  (** ** C63: polygons, rings and vertices correspond, and each vertex is transformed like a point *)
  Lemma translate_val a b c x y z : translate_pt (Fin a) (Fin b) (Fin c) (finp (x, y, z)) = finp (x + a, y + b, option_map (fun v => v + c) z).
  Proof using.
    destruct z as [z|]; cbn; unfold one, zero; cbn.
    - repeat f_equal; lra.
    - repeat f_equal; lra.
  Qed.
  Theorem C63_polygon_to_local re rn ra local ext (poly : list (list (R * R * option R))) :
    polygon_to_local_coords project (tr_at re rn ra local ext) (map (map finp) poly) =
    map (map (fun p => to_local_coords project (tr_at re rn ra local ext) (Fin (fst (fst p))) (Fin (snd (fst p))) (finz (snd p)))) poly.
  Proof using Hp Hk.
    unfold polygon_to_local_coords. rewrite !map_map. apply map_ext. intros ring. rewrite !map_map. apply map_ext. intros [[x y] z]. cbn [fst snd].
    rewrite to_local_val. unfold project_pt. cbn [finp external_proj local_proj tr_at ref_easting ref_northing ref_altitude]. rewrite Hp.
    destruct (pr ext local x y z) as [[e n] a]. cbn [nopp XR xopp]. rewrite translate_val. destruct a; reflexivity.
  Qed.
  Theorem C63_polygon_from_local re rn ra local ext (poly : list (list (R * R * option R))) :
    polygon_from_local_coords project (tr_at re rn ra local ext) (map (map finp) poly) =
    map (map (fun p => from_local_coords project (tr_at re rn ra local ext) (Fin (fst (fst p))) (Fin (snd (fst p))) (finz (snd p)))) poly.
  Proof using Hp Hk.
    unfold polygon_from_local_coords. rewrite !map_map. apply map_ext. intros ring. rewrite !map_map. apply map_ext. intros [[x y] z]. cbn [fst snd].
    rewrite from_local_val. cbn [external_proj local_proj tr_at ref_easting ref_northing ref_altitude]. rewrite translate_val.
    unfold project_pt. cbn [finp]. rewrite Hp. reflexivity.
  Qed.
  (** ** C117: the reference point is the origin of the local system *)
  Theorem C117_reference_is_origin local ext re rn ra lon lat alt : pr ext local lon lat (Some alt) = (re, rn, Some ra) ->
    to_local_coords project (new_transformer project local (Fin re) (Fin rn) (Fin ra) ext None) (Fin lon) (Fin lat) (Some (Fin alt)) = (Fin 0, Fin 0, Some (Fin 0)).
  Proof using Hp Hk.
    intros H. unfold new_transformer. change (mktr (Fin re) (Fin rn) (Fin ra) local ext) with (tr_at re rn ra local ext).
    pose proof (to_local_val re rn ra local ext lon lat (Some alt)) as E. cbn [finz option_map] in E. rewrite E, H. cbn. repeat f_equal; lra.
  Qed.
  (** a reference given in the external system (ref_proj): its local coordinates are 0, 0 *)
  Theorem C117_reference_in_external_system local ext lon lat ra :
    to_local_coords project (new_transformer project local (Fin lon) (Fin lat) (Fin ra) ext (Some ext)) (Fin lon) (Fin lat) None = (Fin 0, Fin 0, None).
  Proof using Hp Hk.
    unfold new_transformer. pose proof (Hp ext local lon lat None) as E. pose proof (Hk ext local lon lat None) as K. cbn [finz option_map] in E. rewrite E.
    destruct (pr ext local lon lat None) as [[e n] a] eqn:F. cbn [finp].
    change (mktr (Fin e) (Fin n) (Fin ra) local ext) with (tr_at e n ra local ext).
    pose proof (to_local_val e n ra local ext lon lat None) as E2. cbn [finz option_map] in E2. rewrite E2, F. cbn [snd] in K. destruct a; [exfalso; assert (Some r = None) by (apply K; reflexivity); discriminate|].
    cbn. repeat f_equal; lra.
  Qed.
  (** moving the reference shifts all local coordinates by the same amount *)
  Theorem C117_reference_shifts re rn ra local ext x y z e n a : 
    to_local_coords project (tr_at 0 0 0 local ext) (Fin x) (Fin y) (finz z) = finp (e, n, a) ->
    to_local_coords project (tr_at re rn ra local ext) (Fin x) (Fin y) (finz z) = finp (e - re, n - rn, option_map (fun v => v - ra) a).
  Proof using Hp Hk.
    rewrite !to_local_val. destruct (pr ext local x y z) as [[e' n'] a']. cbn [finp]. intros H. apply pair_equal_spec in H. destruct H as [H H3]. apply pair_equal_spec in H. destruct H as [H1 H2].
    assert (e = e') by (injection H1; lra). assert (n = n') by (injection H2; lra). subst.
    assert (a = a'). { destruct a, a'; cbn in H3; try discriminate; [|reflexivity]. injection H3. intros. f_equal. lra. } subst. reflexivity.
  Qed.
End Coordinates.

(** two systems: degrees and the same degrees times 100, turned by a right angle *)
Definition ex_pr (a b : bool) (x y : R) (z : option R) : R * R * option R :=
  match a, b with
  | true, false => (- (100 * y), 100 * x, z)
  | false, true => (y / 100, - x / 100, z)
  | _, _ => (x, y, z)
  end.
Example C63_example_inverse : forall p, inverse_at ex_pr true false p /\ inverse_at ex_pr false true p.
Proof. intros [[x y] z]. cbn. split; repeat f_equal; lra. Qed.
Example C63_example_altitude : keeps_altitude ex_pr.
Proof. intros [] [] x y z; cbn; tauto. Qed.
Definition ex_project (a b : bool) (x y : xr) (z : option xr) : xr * xr * option xr :=
  match x, y, z with
  | Fin x, Fin y, None => finp (ex_pr a b x y None)
  | Fin x, Fin y, Some (Fin z) => finp (ex_pr a b x y (Some z))
  | _, _, _ => (NaN, NaN, z)
  end.
Example C63_example_computes : computes ex_pr ex_project.
Proof. intros a b x y [z|]; reflexivity. Qed.
Example C63_example : to_local_coords ex_project (tr_at 10 20 30 false true) (Fin 1) (Fin 2) (Some (Fin 5)) = (Fin (-210), Fin 80, Some (Fin (-25))).
Proof. change (Some (Fin 5)) with (finz (Some 5)). rewrite (to_local_val ex_pr ex_project C63_example_computes C63_example_altitude). cbn. repeat f_equal; lra. Qed.

(** ** C64: bounding boxes *)
Definition finxy (p : R * R) : xr * xr := (Fin (fst p), Fin (snd p)).
Lemma amin_fin x l : exists m, amin (Fin x) (map Fin l) = Fin m /\ m <= x /\ Forall (fun y => m <= y) l /\ In m (x :: l).
Proof.
  unfold amin. revert x. induction l as [|y l IH]; intros x; cbn [map fold_left].
  - exists x. repeat split; [lra|constructor|left; reflexivity].
  - unfold nmin2 at 2. cbn [nisnan XR nltb xltb]. destruct (rlt y x) eqn:E.
    + apply rlt_true in E. destruct (IH y) as (m & Em & H1 & H2 & H3). exists m. split; [exact Em|]. split; [lra|]. split; [constructor; assumption|]. right. exact H3.
    + apply rlt_false in E. destruct (IH x) as (m & Em & H1 & H2 & H3). exists m. split; [exact Em|]. split; [lra|]. split; [constructor; [lra|assumption]|]. destruct H3; [left; assumption|right; right; assumption].
Qed.
Lemma amax_fin x l : exists m, amax (Fin x) (map Fin l) = Fin m /\ x <= m /\ Forall (fun y => y <= m) l /\ In m (x :: l).
Proof.
  unfold amax. revert x. induction l as [|y l IH]; intros x; cbn [map fold_left].
  - exists x. repeat split; [lra|constructor|left; reflexivity].
  - unfold nmax2 at 2. cbn [nisnan XR nltb xltb]. destruct (rlt x y) eqn:E.
    + apply rlt_true in E. destruct (IH y) as (m & Em & H1 & H2 & H3). exists m. split; [exact Em|]. split; [lra|]. split; [constructor; assumption|]. right. exact H3.
    + apply rlt_false in E. destruct (IH x) as (m & Em & H1 & H2 & H3). exists m. split; [exact Em|]. split; [lra|]. split; [constructor; [lra|assumption]|]. destruct H3; [left; assumption|right; right; assumption].
Qed.
Lemma map_fst_fin l : map fst (map finxy l) = map Fin (map fst l).
Proof. rewrite !map_map. reflexivity. Qed.
Lemma map_snd_fin l : map snd (map finxy l) = map Fin (map snd l).
Proof. rewrite !map_map. reflexivity. Qed.
(** the result is the smallest rectangle around the polygon, as (minx, miny, maxx, maxy) *)
Theorem C64_bounding_box ring : ring <> [] -> exists a c d e,
  polygon_to_bounding_box (map finxy ring) = Some (Fin a, Fin c, Fin d, Fin e) /\ bounding_rect ring (a, c, d, e).
Proof.
  destruct ring as [|[x y] r]; [easy|intros _]. cbn [map]. unfold polygon_to_bounding_box, bounds, finxy at 1. cbn [fst snd].
  rewrite map_fst_fin, map_snd_fin.
  destruct (amin_fin x (map fst r)) as (a & Ea & A1 & A2 & A3). destruct (amin_fin y (map snd r)) as (c & Ec & B1 & B2 & B3).
  destruct (amax_fin x (map fst r)) as (d & Ed & D1 & D2 & D3). destruct (amax_fin y (map snd r)) as (e & Ee & E1 & E2 & E3).
  exists a, c, d, e. rewrite Ea, Ec, Ed, Ee. split; [reflexivity|]. split.
  - constructor; [cbn; lra|]. rewrite Forall_map in A2, B2, D2, E2. rewrite Forall_forall in *. intros p Hp. specialize (A2 p Hp). specialize (B2 p Hp). specialize (D2 p Hp). specialize (E2 p Hp). cbn. lra.
  - intros minx miny maxx maxy H.
    assert (Hx : forall v, In v (x :: map fst r) -> minx <= v <= maxx).
    { intros v Hv. change (x :: map fst r) with (map fst ((x, y) :: r)) in Hv. apply in_map_iff in Hv. destruct Hv as (p & <- & Hp). rewrite Forall_forall in H. specialize (H p Hp). cbn in H. lra. }
    assert (Hy : forall v, In v (y :: map snd r) -> miny <= v <= maxy).
    { intros v Hv. change (y :: map snd r) with (map snd ((x, y) :: r)) in Hv. apply in_map_iff in Hv. destruct Hv as (p & <- & Hp). rewrite Forall_forall in H. specialize (H p Hp). cbn in H. lra. }
    pose proof (Hx _ A3). pose proof (Hx _ D3). pose proof (Hy _ B3). pose proof (Hy _ E3). lra.
Qed.
Lemma bounding_rect_unique ring a b : bounding_rect ring a -> bounding_rect ring b -> a = b.
Proof.
  destruct a as [[[a1 a2] a3] a4], b as [[[b1 b2] b3] b4]. intros [Ha Ka] [Hb Kb]. specialize (Ka _ _ _ _ Hb). specialize (Kb _ _ _ _ Ha). cbn in *.
  repeat f_equal; lra.
Qed.
(** a box made from its limits has exactly these bounds, and its corners are all four *)
Theorem C64_box_round_trip x_min x_max y_min y_max : x_min <= x_max -> y_min <= y_max ->
  polygon_to_bounding_box (bounding_box_to_polygon (Fin x_min) (Fin x_max) (Fin y_min) (Fin y_max)) = Some (Fin x_min, Fin y_min, Fin x_max, Fin y_max) /\
  forall x y, (x = x_min \/ x = x_max) -> (y = y_min \/ y = y_max) -> In (Fin x, Fin y) (bounding_box_to_polygon (Fin x_min) (Fin x_max) (Fin y_min) (Fin y_max)).
Proof.
  intros Hx Hy. split.
  - set (ring := [(x_max, y_min); (x_max, y_max); (x_min, y_max); (x_min, y_min); (x_max, y_min)]).
    change (bounding_box_to_polygon (Fin x_min) (Fin x_max) (Fin y_min) (Fin y_max)) with (map finxy ring).
    destruct (C64_bounding_box ring ltac:(discriminate)) as (a & c & d & e & E & Hb). rewrite E.
    assert (H : bounding_rect ring (x_min, y_min, x_max, y_max)).
    { split.
      - unfold ring. repeat (apply Forall_cons; [cbn; lra|]). apply Forall_nil.
      - intros a' c' d' e' Hf. rewrite Forall_forall in Hf. pose proof (Hf (x_max, y_max)) as H1. pose proof (Hf (x_min, y_min)) as H2. cbn in H1, H2.
        specialize (H1 ltac:(tauto)). specialize (H2 ltac:(tauto)). lra. }
    pose proof (bounding_rect_unique _ _ _ Hb H) as Eq. injection Eq as -> -> -> ->. reflexivity.
  - intros x y [-> | ->] [-> | ->]; cbn; tauto.
Qed.
(** C118 (refuted): the result of polygon_to_bounding_box cannot be fed to
    bounding_box_to_polygon: the argument orders differ *)
Theorem C118_box_functions_compose_refuted : exists ring a c d e,
  polygon_to_bounding_box (map finxy ring) = Some (Fin a, Fin c, Fin d, Fin e) /\
  bounding_rect ring (a, c, d, e) /\
  polygon_to_bounding_box (bounding_box_to_polygon (Fin a) (Fin c) (Fin d) (Fin e)) <> Some (Fin a, Fin c, Fin d, Fin e).
Proof.
  exists [(0, 10); (1, 10); (1, 12)].
  assert (H : bounding_rect [(0, 10); (1, 10); (1, 12)] (0, 10, 1, 12)).
  { split; [repeat (apply Forall_cons; [cbn; lra|]); apply Forall_nil|]. intros a' c' d' e' Hf. rewrite Forall_forall in Hf.
    pose proof (Hf (0, 10)) as H1. pose proof (Hf (1, 12)) as H2. cbn in H1, H2. specialize (H1 ltac:(tauto)). specialize (H2 ltac:(tauto)). lra. }
  destruct (C64_bounding_box [(0, 10); (1, 10); (1, 12)] ltac:(discriminate)) as (a & c & d & e & E & Hb).
  pose proof (bounding_rect_unique _ _ _ Hb H) as Eq. injection Eq as -> -> -> ->. exists 0, 10, 1, 12. split; [exact E|]. split; [exact H|].
  destruct (C64_box_round_trip 0 10 1 12 ltac:(lra) ltac:(lra)) as [K _]. rewrite K. intros Ek. injection Ek. intros. lra.
Qed.
Example C64_example : polygon_to_bounding_box (map finxy [(0, 0); (0, 1); (1, 1)]) <> None.
Proof. discriminate. Qed.

(** ** C71: the polygon filter *)
Section Filter.
  Open Scope string_scope.
  Context {V I : Type} (intersects : list (V * V) -> V -> V -> bool) (of_bool : bool -> V) (truth : V -> bool).
  Hypothesis Htruth : forall b, truth (of_bool b) = b.
  Definition well_formed (t : table V I) : Prop := NoDup (columns t) /\ Forall (fun r => map fst (snd r) = columns t) (rows t).
  Lemma dget_In (d : dict V) k v : dget d k = Some v -> In (k, v) d.
  Proof using.
    induction d as [|[a b] d IH]; cbn; [discriminate|]. destruct (String.eqb_spec k a) as [-> |]; [intros [= ->]; left; reflexivity|intros; right; auto].
  Qed.
  Lemma dget_some (d : dict V) k : In k (map fst d) -> exists v, dget d k = Some v.
  Proof using.
    induction d as [|[a b] d IH]; cbn; [contradiction|]. destruct (String.eqb_spec k a); [eexists; reflexivity|]. intros [E|H]; [congruence|auto].
  Qed.
  Lemma drop_set (d : dict V) c v : filter (fun kv => negb (String.eqb (fst kv) c)) (dset d c v) = filter (fun kv => negb (String.eqb (fst kv) c)) d.
  Proof using. apply (filter_dset (fun k => negb (String.eqb k c))). rewrite String.eqb_refl. reflexivity. Qed.
  (** the rows kept, in terms of the input alone *)
  Definition inside (vertices : list (V * V)) (r : I * dict V) : Prop :=
    exists lat lon, dget (snd r) "latitude" = Some lat /\ dget (snd r) "longitude" = Some lon /\ intersects vertices lat lon = true.
  (** [out] is [l] with the rows not satisfying [P] removed, order and multiplicity kept *)
  Inductive subsequence_of {A} (P : A -> Prop) : list A -> list A -> Prop :=
  | sub_nil : subsequence_of P [] []
  | sub_keep x l out : P x -> subsequence_of P l out -> subsequence_of P (x :: l) (x :: out)
  | sub_skip x l out : ~ P x -> subsequence_of P l out -> subsequence_of P (x :: l) out.

  Lemma filter_rows vertices (l : list (I * dict V)) (f : dict V -> V) :
    (forall d, dget d "latitude" <> None -> dget d "longitude" <> None -> 
       f d = of_bool (match dget d "latitude", dget d "longitude" with Some a, Some o => intersects vertices a o | _, _ => false end)) ->
    Forall (fun r => dget (snd r) "latitude" <> None /\ dget (snd r) "longitude" <> None) l ->
    exists kept, subsequence_of (inside vertices) l kept /\
      map (fun r => (fst r, filter (fun kv => negb (String.eqb (fst kv) "inside_polygon")) (snd r)))
        (filter (fun r => match dget (snd r) "inside_polygon" with Some v => truth v | None => false end)
           (map (fun r => (fst r, dset (snd r) "inside_polygon" (f (snd r)))) l))
      = map (fun r => (fst r, filter (fun kv => negb (String.eqb (fst kv) "inside_polygon")) (snd r))) kept.
  Proof using Htruth.
    intros Hf Hl. induction Hl as [|[i d] l [H1 H2] Hl IH].
    - exists []. split; [constructor|reflexivity].
    - destruct IH as (kept & Hs & E). cbn [map filter fst snd] in *. rewrite dget_dset, String.eqb_refl, (Hf d H1 H2), Htruth.
      destruct (dget d "latitude") as [a|] eqn:Ea; [|congruence]. destruct (dget d "longitude") as [o|] eqn:Eo; [|congruence].
      destruct (intersects vertices a o) eqn:Ei.
      + exists ((i, d) :: kept). split; [constructor; [exists a, o; auto|exact Hs]|]. cbn [map fst snd]. rewrite E, drop_set. reflexivity.
      + exists kept. split; [|exact E]. constructor; [|exact Hs]. intros (a' & o' & G1 & G2 & G3). cbn [snd] in *. congruence.
  Qed.
  Definition without_marker (r : I * dict V) : I * dict V := (fst r, filter (fun kv => negb (String.eqb (fst kv) "inside_polygon")) (snd r)).

  Theorem C71_keeps_exactly_inside_rows (cat : table V I) vertices :
    well_formed cat -> rows cat <> [] -> In "latitude" (columns cat) -> In "longitude" (columns cat) -> ~ In "inside_polygon" (columns cat) ->
    exists out, cat_intersect_polygon intersects of_bool truth cat vertices = Ok out /\ columns out = columns cat /\ subsequence_of (inside vertices) (rows cat) (rows out).
  Proof using Htruth.
    intros [Hnd Hwf] Hne Hlat Hlon Hip. unfold cat_intersect_polygon.
    assert (M : forall c, In c (columns cat) -> mem c (columns cat) = true). { intros c Hc. unfold mem. apply existsb_exists. exists c. split; [exact Hc|apply String.eqb_refl]. }
    assert (M2 : mem "inside_polygon" (columns cat) = false). { destruct (mem "inside_polygon" (columns cat)) eqn:E; [|reflexivity]. exfalso. unfold mem in E. apply existsb_exists in E. destruct E as (x & Hx & E). apply String.eqb_eq in E. subst x. contradiction. }
    destruct (rows cat) as [|r0 rs] eqn:Er; [congruence|]. rewrite (M _ Hlat), (M _ Hlon). cbn [andb negb].
    set (f := fun row : dict V => match dget row "latitude" with Some a => match dget row "longitude" with Some o => of_bool (intersects vertices a o) | None => of_bool false end | None => of_bool false end).
    destruct (filter_rows vertices (rows cat) f) as (kept & Hs & E).
    { intros d H1 H2. unfold f. destruct (dget d "latitude"); [|congruence]. destruct (dget d "longitude"); [|congruence]. reflexivity. }
    { rewrite Er. apply Forall_impl with (2 := Hwf). intros [i d] H. cbn [snd] in *. split; intros G.
      - destruct (dget_some d "latitude") as [v Hv]; [rewrite H; exact Hlat|congruence].
      - destruct (dget_some d "longitude") as [v Hv]; [rewrite H; exact Hlon|congruence]. }
    eexists. split; [reflexivity|]. unfold drop_column, set_column. cbn [columns rows]. split.
    - rewrite M2. rewrite filter_app. cbn [filter]. change (String.eqb "inside_polygon" "inside_polygon") with true. cbn [negb]. rewrite app_nil_r.
      clear -Hip. induction (columns cat) as [|c l IH]; cbn; [reflexivity|]. destruct (String.eqb_spec c "inside_polygon") as [-> |]; [exfalso; apply Hip; left; reflexivity|].
      cbn. rewrite IH; [reflexivity|]. intros H. apply Hip. right. exact H.
    - rewrite <- Er.
      assert (Ek : map (fun r : I * dict V => (fst r, filter (fun kv => negb (String.eqb (fst kv) "inside_polygon")) (snd r))) kept = kept).
      { assert (Hk : Forall (fun r => map fst (snd r) = columns cat) kept).
        { clear -Hs Hwf Er. rewrite <- Er in Hwf. clear Er r0 rs. revert Hs Hwf. generalize (rows cat). intros l Hs. induction Hs; intros Hwf; [constructor|inversion_clear Hwf; constructor; auto|inversion_clear Hwf; auto]. }
        clear -Hk Hip. induction Hk as [|[i d] l H Hk IH]; [reflexivity|]. cbn [map fst snd] in *. rewrite IH. f_equal. f_equal.
        assert (Hd : ~ In "inside_polygon" (map fst d)) by (rewrite H; exact Hip). clear -Hd. induction d as [|[k v] d IH]; cbn; [reflexivity|].
        destruct (String.eqb_spec k "inside_polygon") as [-> |]; [exfalso; apply Hd; left; reflexivity|]. cbn. rewrite IH; [reflexivity|]. intros H. apply Hd. right. exact H. }
      pose proof (eq_trans E Ek) as E'. unfold f in E'. match goal with |- subsequence_of _ _ ?o => replace o with kept by (symmetry; exact E') end. exact Hs.
  Qed.
  (** C119 (refuted): an empty catalogue is not filtered to an empty catalogue *)
  Theorem C119_empty_catalogue_refuted columns vertices :
    cat_intersect_polygon (I := I) intersects of_bool truth (mktable columns []) vertices = Err ValueError.
  Proof using. reflexivity. Qed.
  (** missing columns: KeyError *)
  Theorem C71_missing_column (cat : table V I) vertices : rows cat <> [] -> (~ In "latitude" (columns cat) \/ ~ In "longitude" (columns cat)) ->
    cat_intersect_polygon intersects of_bool truth cat vertices = Err KeyError.
  Proof using.
    intros Hr H. unfold cat_intersect_polygon. destruct (rows cat); [congruence|].
    assert (M : forall c, ~ In c (columns cat) -> mem c (columns cat) = false).
    { intros c Hc. destruct (mem c (columns cat)) eqn:E; [|reflexivity]. exfalso. unfold mem in E. apply existsb_exists in E. destruct E as (x & Hx & E). apply String.eqb_eq in E. subst x. contradiction. }
    destruct H as [H|H]; rewrite (M _ H); rewrite ?andb_false_r; reflexivity.
  Qed.
End Filter.
(** points are compared as (latitude, longitude): a half plane lat >= 2 *)
Example C71_example : let t := mktable ["latitude"; "longitude"; "magnitude"]%string
     [(0%nat, [("latitude", 1%nat); ("longitude", 5%nat); ("magnitude", 3%nat)]%string); (1%nat, [("latitude", 2%nat); ("longitude", 0%nat); ("magnitude", 4%nat)]%string)] in
  cat_intersect_polygon (fun _ a _ => Nat.leb 2 a) (fun b : bool => if b then 1%nat else 0%nat) (fun v => Nat.eqb v 1) t [] =
  Ok (mktable ["latitude"; "longitude"; "magnitude"]%string [(1%nat, [("latitude", 2%nat); ("longitude", 0%nat); ("magnitude", 4%nat)]%string)]) /\ well_formed t.
Proof. split; [reflexivity|]. split; [repeat constructor; cbn; intuition discriminate|repeat constructor]. Qed.

Print Assumptions C63_external_round_trip.
Print Assumptions C63_polygon_to_local.
Print Assumptions C117_reference_in_external_system.
Print Assumptions C64_bounding_box.
Print Assumptions C118_box_functions_compose_refuted.
Print Assumptions C71_keeps_exactly_inside_rows.
