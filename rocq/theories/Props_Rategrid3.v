(** * Rate grids: statistics (C146-C148), examples *)
From Coq Require Import Reals List Bool String Sorted Permutation Lia Lra ZArith.
From Verif Require Import Base Num XR Dict SortLib Utils_model Spec_Catalog Props_Catalog Rategrid_model Spec_Rategrid Rategrid_proofs Props_Rategrid Props_Rategrid2.
Import ListNotations.
Open Scope list_scope.

(** ** the keys *)
Lemma no_nan_spec (r : list xr) : no_nan r = true <-> complete_row r.
Proof.
  unfold no_nan, complete_row. rewrite forallb_forall. split.
  - intros H K. specialize (H NaN K). discriminate H.
  - intros H x Hx. destruct x; cbn; try reflexivity. contradiction.
Qed.
Lemma row_le_spec (r s : list xr) : complete_row r -> complete_row s -> length r = length s -> (row_le r s = true <-> row_before r s \/ r = s).
Proof.
  revert s. induction r as [|x r IH]; intros [|y s] Hr Hs Hl; try discriminate Hl; cbn [row_le row_before]; [split; auto|].
  assert (Hx : x <> NaN) by (intros ->; apply Hr; left; reflexivity). assert (Hy : y <> NaN) by (intros ->; apply Hs; left; reflexivity).
  rewrite orb_true_iff, andb_true_iff, (xltb_before x y Hx Hy), xeqb_spec, IH; [|intros K; apply Hr; right; exact K | intros K; apply Hs; right; exact K | cbn in Hl; lia].
  split.
  - intros [H|[[-> _] [H| ->]]]; auto.
  - intros [[H|[-> H]]|E]; auto. injection E as -> ->. auto.
Qed.
Lemma row_total (r s : list xr) : complete_row r -> complete_row s -> length r = length s -> row_before r s \/ r = s \/ row_before s r.
Proof.
  revert s. induction r as [|x r IH]; intros [|y s] Hr Hs Hl; try discriminate Hl; cbn [row_before]; [auto|].
  assert (Hx : x <> NaN) by (intros ->; apply Hr; left; reflexivity). assert (Hy : y <> NaN) by (intros ->; apply Hs; left; reflexivity).
  destruct (before_total x y Hx Hy) as [H|[H|H]]; auto. subst y.
  assert (G : row_before r s \/ r = s \/ row_before s r) by (apply IH; [intros K; apply Hr; right; exact K | intros K; apply Hs; right; exact K | cbn in Hl; lia]).
  destruct G as [H|[->|H]]; auto.
Qed.
Lemma dedup_in (l : list (list xr)) k : In k (dedup l) <-> In k l.
Proof.
  revert k. induction l as [|x l IH]; intros k; cbn [dedup]; [reflexivity|]. split; intros [<-|H].
  - left. reflexivity.
  - apply filter_In in H. right. apply IH. apply H.
  - left. reflexivity.
  - destruct (same_row x k) eqn:E; [left; apply same_row_spec in E; apply E|]. right. apply filter_In. split; [apply IH; exact H | rewrite E; reflexivity].
Qed.
Lemma dedup_nodup (l : list (list xr)) : Forall complete_row l -> NoDup (dedup l).
Proof.
  induction 1 as [|x l Hx H IH]; cbn [dedup]; constructor; [|apply NoDup_filter; exact IH].
  intros K. apply filter_In in K. destruct K as [_ K]. replace (same_row x x) with true in K; [discriminate|]. symmetry. apply same_row_spec. auto.
Qed.
Lemma group_keys_spec (keys : list (list xr)) n : (forall k, In k keys -> length k = n) ->
  StronglySorted row_before (group_keys keys) /\ forall k, In k (group_keys keys) <-> In k keys /\ complete_row k.
Proof.
  intros Hlen. unfold group_keys. set (l := dedup (filter no_nan keys)).
  assert (Hin : forall k, In k l <-> In k keys /\ complete_row k) by (intros k; unfold l; rewrite dedup_in, filter_In, no_nan_spec; reflexivity).
  assert (Hp := isort_perm row_le l).
  assert (Hin' : forall k, In k (isort row_le l) <-> In k keys /\ complete_row k).
  { intros k. rewrite <- Hin. split; intros H; [eapply Permutation_in; [apply Permutation_sym; exact Hp | exact H] | eapply Permutation_in; [exact Hp | exact H]]. }
  split; [|exact Hin'].
  assert (Hnd : NoDup (isort row_le l)).
  { eapply Permutation_NoDup; [exact Hp|]. apply dedup_nodup. apply Forall_forall. intros k Hk. apply filter_In in Hk. apply no_nan_spec. apply Hk. }
  assert (Hs : StronglySorted (leP row_le) (isort row_le l)).
  { apply isort_sorted_in.
    - intros a b Ha Hb. apply Hin in Ha, Hb. destruct Ha as [Ha Ca], Hb as [Hb Cb]. rewrite (row_le_spec a b), (row_le_spec b a) by (auto; rewrite (Hlen a), (Hlen b) by assumption; reflexivity).
      destruct (row_total a b Ca Cb) as [H|[H|H]]; auto. rewrite (Hlen a), (Hlen b) by assumption. reflexivity.
    - intros a b c Ha Hb Hc. apply Hin in Ha, Hb, Hc. destruct Ha as [Ha Ca], Hb as [Hb Cb], Hc as [Hc Cc].
      rewrite !row_le_spec by (auto; repeat (rewrite Hlen by assumption); reflexivity).
      intros [H1| ->] [H2| ->]; auto. left. eapply row_before_trans; eauto. }
  assert (G : forall l, NoDup l -> StronglySorted (leP row_le) l -> (forall k, In k l -> In k keys /\ complete_row k) -> StronglySorted row_before l).
  { clear -Hlen. intros l Hnd Hs Hin. induction Hs as [|x l Hs IH Hf]; constructor.
    - inversion Hnd. apply IH; auto. intros k Hk. apply Hin. right. exact Hk.
    - rewrite Forall_forall in *. intros y Hy. specialize (Hf y Hy). unfold leP in Hf. destruct (Hin x (or_introl eq_refl)) as [Kx Cx], (Hin y (or_intror Hy)) as [Ky Cy].
      apply (row_le_spec x y Cx Cy) in Hf; [|rewrite (Hlen x Kx), (Hlen y Ky); reflexivity]. destruct Hf as [Hf| ->]; [exact Hf|]. inversion Hnd; contradiction. }
  apply G; [exact Hnd | exact Hs | intros k; apply Hin'].
Qed.
Lemma group_rows_spec keys rows (k : list xr) : complete_row k -> length keys = length rows ->
  exists sel, selected (fun p => fst p = k) (combine keys rows) sel /\ group_rows keys rows k = map snd sel.
Proof.
  intros Hk Hlen. exists (filter (fun p => same_row (fst p) k) (combine keys rows)). split.
  - clear Hlen. induction (combine keys rows) as [|p l IH]; cbn [filter]; [constructor|]. destruct (same_row (fst p) k) eqn:E.
    + apply sel_take; [apply same_row_spec in E; apply E | exact IH].
    + apply sel_drop; [|exact IH]. intros F. rewrite F in E. replace (same_row k k) with true in E; [discriminate|]. symmetry. apply same_row_spec. auto.
  - unfold group_rows. f_equal. f_equal. clear -Hlen. revert rows Hlen. induction keys as [|x keys IH]; intros [|y rows] H; try discriminate H; [reflexivity|]. cbn [zip combine]. f_equal. apply IH. cbn in H. lia.
Qed.

(** ** the columns *)
Lemma nonempty_spec (g : grid xr) c : In c (nonempty_columns (g_tab g)) <-> known_column g c.
Proof.
  unfold nonempty_columns, known_column. rewrite filter_In, existsb_exists. split; intros [H (row & Hr & Hv)]; split; auto; exists row; split; auto.
  - change (cell row c) with (value c row) in Hv. intros E. rewrite E in Hv. discriminate Hv.
  - change (cell row c) with (value c row). destruct (value c row); try reflexivity. congruence.
Qed.
Lemma derived_inj c c' s s' : In c base_columns -> In c' base_columns -> (c ++ "_" ++ s = c' ++ "_" ++ s')%string -> c = c' /\ s = s'.
Proof.
  intros H H' E. unfold base_columns in *. cbn [In] in H, H'.
  repeat (destruct H as [<-|H]); try contradiction; repeat (destruct H' as [<-|H']); try contradiction; cbn [append] in E; try discriminate E; split; try reflexivity; injection E as E; exact E.
Qed.
Lemma derived_not_id c s : In c base_columns -> (c ++ "_" ++ s)%string <> "grid_id"%string.
Proof. intros H. unfold base_columns in H. cbn [In] in H. repeat (destruct H as [<-|H]); try contradiction; cbn [append]; discriminate. Qed.

Lemma NoDup_app_snoc {A} (l : list A) x : NoDup l -> ~ In x l -> NoDup (l ++ [x]).
Proof. intros H Hx. apply (Permutation_NoDup (l := x :: l)); [apply Permutation_cons_append | constructor; assumption]. Qed.

Section Plan.
  Variable cols : list string.
  Definition plan_entry := (string * (string * (list xr -> xr)))%type.
  Definition extra_ok (pairs : list (string * (list xr -> xr) * string)) (st : list string * list plan_entry) : Prop :=
    fst st = cols ++ map fst (snd st) /\ NoDup (map fst (snd st)) /\ (forall n, In n (map fst (snd st)) -> ~ In n cols) /\
    (forall p, In p (snd st) -> exists sf c, In (sf, c) pairs /\ p = ((c ++ "_" ++ fst sf)%string, (c, snd sf))) /\
    (forall sf c, In (sf, c) pairs -> ~ In (c ++ "_" ++ fst sf)%string cols -> exists f, In ((c ++ "_" ++ fst sf)%string, (c, f)) (snd st) /\ exists sf', In (sf', c) pairs /\ fst sf' = fst sf /\ f = snd sf').
  Definition inner (sf : string * (list xr -> xr)) (st : list string * list plan_entry) (c : string) : list string * list plan_entry :=
    let '(cs, plan) := st in let d := (c ++ "_" ++ fst sf)%string in if mem d cs then st else (cs ++ [d], plan ++ [(d, (c, snd sf))]).
  Lemma inner_ok pairs st sf c : In c base_columns -> (forall sf' c', In (sf', c') pairs -> In c' base_columns) -> extra_ok pairs st -> extra_ok (pairs ++ [(sf, c)]) (inner sf st c).
  Proof.
    intros Hc Hpairs (H1 & H2 & H3 & H4 & H5). destruct st as [cs plan]. cbn [fst snd] in *. unfold inner.
    destruct (mem _ cs) eqn:E; [apply mem_In in E | apply mem_not in E]; unfold extra_ok; cbn [fst snd].
    - split; [exact H1|]. split; [exact H2|]. split; [exact H3|]. split.
      + intros p Hp. destruct (H4 p Hp) as (sf' & c' & K1 & K2). exists sf', c'. split; [apply in_or_app; left; exact K1 | exact K2].
      + intros sf' c' K Hn. apply in_app_or in K. destruct K as [K|[K|[]]].
        * destruct (H5 sf' c' K Hn) as (f & F1 & sf2 & F2 & F3). exists f. split; [exact F1|]. exists sf2. split; [apply in_or_app; left; exact F2 | exact F3].
        * injection K as <- <-. rewrite H1 in E. apply in_app_or in E. destruct E as [E|E]; [contradiction|].
          apply in_map_iff in E. destruct E as (p & E1 & E2). destruct (H4 p E2) as (sf2 & c2 & K1 & ->). cbn [fst] in E1.
          destruct (derived_inj c2 c (fst sf2) (fst sf) (Hpairs _ _ K1) Hc E1) as [-> Es]. exists (snd sf2). split; [rewrite <- E1; exact E2|]. exists sf2. split; [apply in_or_app; left; exact K1|]. auto.
    - assert (Hd : ~ In (c ++ "_" ++ fst sf)%string cols) by (intros K; apply E; rewrite H1; apply in_or_app; left; exact K).
      split; [rewrite H1, map_app, app_assoc; reflexivity|]. split; [|split; [|split]].
      + rewrite map_app. cbn [map fst]. apply NoDup_app_snoc; [exact H2|]. intros K. apply E. rewrite H1. apply in_or_app. right. exact K.
      + intros n Hn. rewrite map_app in Hn. apply in_app_or in Hn. destruct Hn as [Hn|[<-|[]]]; [apply H3; exact Hn | exact Hd].
      + intros p Hp. apply in_app_or in Hp. destruct Hp as [Hp|[<-|[]]].
        * destruct (H4 p Hp) as (sf' & c' & K1 & K2). exists sf', c'. split; [apply in_or_app; left; exact K1 | exact K2].
        * exists sf, c. split; [apply in_or_app; right; left; reflexivity | reflexivity].
      + intros sf' c' K Hn. apply in_app_or in K. destruct K as [K|[K|[]]].
        * destruct (H5 sf' c' K Hn) as (f & F1 & sf2 & F2 & F3). exists f. split; [apply in_or_app; left; exact F1|]. exists sf2. split; [apply in_or_app; left; exact F2 | exact F3].
        * injection K as <- <-. exists (snd sf). split; [apply in_or_app; right; left; reflexivity|]. exists sf. split; [apply in_or_app; right; left; reflexivity | auto].
  Qed.
End Plan.

Lemma fold_inner cols sf : forall l pairs st, (forall c, In c l -> In c base_columns) -> (forall sf' c', In (sf', c') pairs -> In c' base_columns) -> extra_ok cols pairs st ->
  extra_ok cols (pairs ++ map (fun c => (sf, c)) l) (fold_left (inner sf) l st).
Proof.
  induction l as [|c l IH]; intros pairs st Hl Hp Hok; cbn [fold_left map]; [rewrite app_nil_r; exact Hok|].
  replace (pairs ++ (sf, c) :: map (fun c0 => (sf, c0)) l) with ((pairs ++ [(sf, c)]) ++ map (fun c0 => (sf, c0)) l) by (rewrite <- app_assoc; reflexivity).
  apply IH; [intros x Hx; apply Hl; right; exact Hx| |apply inner_ok; auto; apply Hl; left; reflexivity].
  intros sf' c' H. apply in_app_or in H. destruct H as [H|[H|[]]]; [eapply Hp; exact H|]. injection H as <- <-. apply Hl. left. reflexivity.
Qed.
Lemma fold_outer cols l : (forall c, In c l -> In c base_columns) -> forall stats pairs st, (forall sf' c', In (sf', c') pairs -> In c' base_columns) -> extra_ok cols pairs st ->
  extra_ok cols (pairs ++ concat (map (fun sf => map (fun c => (sf, c)) l) stats)) (fold_left (fun st sf => fold_left (inner sf) l st) stats st).
Proof.
  intros Hl. induction stats as [|sf stats IH]; intros pairs st Hp Hok; cbn [fold_left map concat]; [rewrite app_nil_r; exact Hok|].
  rewrite app_assoc. apply IH; [|apply fold_inner; assumption].
  intros sf' c' H. apply in_app_or in H. destruct H as [H|H]; [eapply Hp; exact H|]. apply in_map_iff in H. destruct H as (x & E & Hx). injection E as <- <-. apply Hl. exact Hx.
Qed.
Lemma dget_nodup {V} (d : dict V) k v : NoDup (map fst d) -> In (k, v) d -> dget d k = Some v.
Proof.
  induction d as [|[a b] d IH]; intros Hn Hi; [contradiction|]. cbn [map fst] in Hn. inversion Hn as [|? ? H1 H2]; subst. cbn [dget]. destruct Hi as [E|Hi].
  - injection E as -> ->. rewrite String.eqb_refl. reflexivity.
  - destruct (k =? a)%string eqn:E; [|apply IH; assumption]. apply String.eqb_eq in E. subst. elim H1. apply in_map_iff. exists (a, v). auto.
Qed.
Lemma dget_in {V} (d : dict V) k : dget d k <> None -> exists v, In (k, v) d.
Proof.
  induction d as [|[a b] d IH]; cbn [dget]; [congruence|]. destruct (k =? a)%string eqn:E; [|intros H; destruct (IH H) as [v Hv]; exists v; right; exact Hv].
  apply String.eqb_eq in E. subst. intros _. exists b. left. reflexivity.
Qed.

(** ** the summary of a group *)
Lemma plan_spec (g : grid xr) (agg : list xr -> xr) (stats : list (string * (list xr -> xr))) : NoDup (t_columns (g_tab g)) -> NoDup (map fst stats) ->
  let plan := agg_plan (nonempty_columns (g_tab g)) agg stats in
  NoDup (map fst plan) /\
  (forall c, known_column g c -> In (c, (c, agg)) plan) /\
  (forall sfx f c, In (sfx, f) stats -> In c gr_columns -> known_column g c -> ~ known_column g (c ++ "_" ++ sfx)%string -> In ((c ++ "_" ++ sfx)%string, (c, f)) plan) /\
  (forall x y, In (x, y) plan -> known_column g x \/ exists sfx f c, In (sfx, f) stats /\ In c gr_columns /\ known_column g c /\ x = (c ++ "_" ++ sfx)%string).
Proof.
  intros Hn Hs plan. set (cols := nonempty_columns (g_tab g)) in *. set (base := filter (fun c => mem c cols) base_columns).
  assert (Hb : forall c, In c base <-> In c base_columns /\ In c cols) by (intros c; unfold base; rewrite filter_In, mem_In; reflexivity).
  assert (Hok := fold_outer cols base (fun c H => proj1 (proj1 (Hb c) H)) stats [] (cols, []) (fun _ _ H => match H with end)).
  set (st := fold_left (fun st sf => fold_left (inner sf) base st) stats (cols, [])) in *.
  assert (Ep : plan = map (fun c => (c, (c, agg))) cols ++ snd st) by reflexivity.
  destruct Hok as (H1 & H2 & H3 & H4 & H5).
  { split; [cbn; rewrite app_nil_r; reflexivity|]. cbn. split; [constructor|]. split; [tauto|]. split; intros; contradiction. }
  cbn [app] in *. set (pairs := concat (map (fun sf => map (fun c => (sf, c)) base) stats)) in *.
  assert (Hp : forall sf c, In (sf, c) pairs <-> In sf stats /\ In c base).
  { intros sf c. unfold pairs. rewrite in_concat. split.
    - intros (l & Hl & Hc). apply in_map_iff in Hl. destruct Hl as (sf' & <- & Hsf). apply in_map_iff in Hc. destruct Hc as (c' & E & Hc). injection E as <- <-. auto.
    - intros [A B]. exists (map (fun c => (sf, c)) base). split; apply in_map_iff; eauto. }
  assert (Em : map fst (map (fun c : string => (c, (c, agg))) cols) = cols) by (rewrite map_map; apply map_id).
  split; [|split; [|split]].
  - rewrite Ep, map_app, Em. assert (Hc : NoDup cols) by (apply NoDup_filter; exact Hn). revert H2 H3. generalize (map fst (snd st)). clear -Hc. intros m H2 H3. induction Hc as [|x l Hx Hl IH]; [exact H2|]. cbn [app].
    constructor; [|apply IH; intros n Hn K; apply (H3 n Hn); right; exact K]. intros K. apply in_app_or in K. destruct K as [K|K]; [contradiction|]. apply (H3 x K). left. reflexivity.
  - intros c Hc. rewrite Ep. apply in_or_app. left. apply in_map_iff. exists c. split; [reflexivity|]. apply nonempty_spec. exact Hc.
  - intros sfx f c Hf Hc Hk Hd. rewrite Ep. apply in_or_app. right.
    assert (Hpair : In ((sfx, f), c) pairs) by (apply Hp; split; [exact Hf|]; apply Hb; split; [exact Hc | apply nonempty_spec; exact Hk]).
    destruct (H5 (sfx, f) c Hpair) as (f' & F1 & sf' & F2 & F3 & F4); [cbn [fst]; intros K; apply Hd; apply nonempty_spec; exact K|]. cbn [fst] in F1, F3.
    assert (sf' = (sfx, f)).
    { apply Hp in F2. destruct F2 as [F2 _]. destruct sf' as [s' f2]. cbn [fst] in F3. subst s'. f_equal.
      assert (E1 := dget_nodup stats sfx f2 Hs F2). assert (E2 := dget_nodup stats sfx f Hs Hf). congruence. }
    subst sf'. cbn [snd] in F4. subst f'. exact F1.
  - intros x y Hx. rewrite Ep in Hx. apply in_app_or in Hx. destruct Hx as [Hx|Hx].
    + apply in_map_iff in Hx. destruct Hx as (c & E & Hc). injection E as <- <-. left. apply nonempty_spec. exact Hc.
    + right. destruct (H4 _ Hx) as ([sfx f] & c & K1 & K2). apply Hp in K1. destruct K1 as [K1 K3]. apply Hb in K3. destruct K3 as [K3 K4]. injection K2 as -> _. exists sfx, f, c. split; [exact K1|]. split; [exact K3|]. split; [apply nonempty_spec; exact K4 | reflexivity].
Qed.
Definition summary_of (g : grid xr) (agg : list xr -> xr) (stats : list (string * (list xr -> xr))) (rows : list (dict xr)) : dict xr :=
  filter (fun kv => negb (fst kv =? "grid_id")%string)
    (map (fun p => (fst p, snd (snd p) (map (fun row => cell row (fst (snd p))) rows))) (agg_plan (nonempty_columns (g_tab g)) agg stats)).
Lemma summary_spec g agg stats rows : NoDup (t_columns (g_tab g)) -> NoDup (map fst stats) -> summarises g agg stats rows (summary_of g agg stats rows).
Proof.
  intros Hn Hs. destruct (plan_spec g agg stats Hn Hs) as (P1 & P2 & P3 & P4). unfold summary_of. set (plan := agg_plan _ agg stats) in *.
  set (l := map _ plan). assert (El : map fst l = map fst plan) by (unfold l; rewrite map_map; reflexivity).
  assert (Hnd : NoDup (map fst (filter (fun kv : string * xr => negb (fst kv =? "grid_id")%string) l))).
  { rewrite <- El in P1. clear -P1. induction l as [|x l IH]; cbn [filter]; [constructor|]. cbn [map] in P1. inversion P1 as [|? ? A B]; subst. destruct (negb _); [|apply IH; exact B].
    cbn [map]. constructor; [|apply IH; exact B]. intros K. apply A. apply in_map_iff in K. destruct K as (y & <- & Hy). apply filter_In in Hy. apply in_map. apply Hy. }
  assert (G : forall n c f, In (n, (c, f)) plan -> n <> "grid_id"%string -> dget (filter (fun kv : string * xr => negb (fst kv =? "grid_id")%string) l) n = Some (f (map (value c) rows))).
  { intros n c f Hi Hne. apply dget_nodup; [exact Hnd|]. apply filter_In. split.
    - apply in_map_iff. exists (n, (c, f)). split; [reflexivity | exact Hi].
    - cbn [fst]. apply String.eqb_neq in Hne. rewrite Hne. reflexivity. }
  split; [intros c Hc Hne; apply G; auto|]. split.
  - intros sfx f c Hf Hc Hk Hd. apply G; [apply P3; assumption | apply derived_not_id; exact Hc].
  - intros x Hx. destruct (dget_in _ _ Hx) as [v Hv]. apply filter_In in Hv. destruct Hv as [Hv Hne]. cbn [fst] in Hne. split.
    + intros ->. discriminate Hne.
    + apply in_map_iff in Hv. destruct Hv as ([n y] & E & Hp). cbn [fst] in E. injection E as -> _. apply (P4 x y). exact Hp.
Qed.
Lemma grouped_spec g agg stats (keys : list (list xr)) n : NoDup (t_columns (g_tab g)) -> NoDup (map fst stats) ->
  length keys = length (t_rows (g_tab g)) -> (forall k, In k keys -> length k = n) ->
  grouped keys (t_rows (g_tab g)) (summarises g agg stats) (map (fun k => (k, summary_of g agg stats (group_rows keys (t_rows (g_tab g)) k))) (group_keys keys)).
Proof.
  intros Hn Hs Hl Hk. destruct (group_keys_spec keys n Hk) as [G1 G2].
  assert (E : map fst (map (fun k => (k, summary_of g agg stats (group_rows keys (t_rows (g_tab g)) k))) (group_keys keys)) = group_keys keys) by (rewrite map_map; apply map_id).
  unfold grouped. rewrite E. split; [exact G1|]. split; [exact G2|]. intros k d Hd. apply in_map_iff in Hd. destruct Hd as (k' & Ek & Hk'). injection Ek as <- <-.
  destruct (group_rows_spec keys (t_rows (g_tab g)) k' (proj2 (proj1 (G2 k') Hk')) Hl) as (sel & S1 & ->). exists sel. split; [exact S1|]. apply summary_spec; assumption.
Qed.

(** ** C146: one summary for each cell, of exactly the realizations of that cell *)
Theorem C146_statistics_by_cell g agg stats : NoDup (t_columns (g_tab g)) -> NoDup (map fst stats) -> index_levels g = 1%nat ->
  (forall c, In c bound_columns -> known_column g c) ->
  exists rs, calculate_statistics g agg stats = Ok rs /\
    grouped (map cell_bounds (t_rows (g_tab g))) (t_rows (g_tab g)) (summarises g agg stats) rs.
Proof.
  intros Hn Hs Hl Hk. unfold calculate_statistics. unfold index_levels in Hl. unfold nlevels. rewrite Hl. cbn [Nat.eqb].
  replace (check_required_cols _ bound_columns) with true by (symmetry; unfold check_required_cols; apply forallb_forall; intros c Hc; apply mem_In; apply nonempty_spec; apply Hk; exact Hc).
  eexists. split; [reflexivity|]. change (map bounds (t_rows (g_tab g))) with (map cell_bounds (t_rows (g_tab g))).
  apply (grouped_spec g agg stats (map cell_bounds (t_rows (g_tab g))) 6 Hn Hs); [apply map_length|]. intros k Hk'. apply in_map_iff in Hk'. destruct Hk' as (r & <- & _). reflexivity.
Qed.
(** with a time index: for each combination of the levels *)
Theorem C146_statistics_by_level g agg stats : NoDup (t_columns (g_tab g)) -> NoDup (map fst stats) -> (1 < index_levels g)%nat -> well_indexed (g_tab g) ->
  exists rs, calculate_statistics g agg stats = Ok rs /\ grouped (t_index (g_tab g)) (t_rows (g_tab g)) (summarises g agg stats) rs.
Proof.
  intros Hn Hs Hl (_ & Hi & Hf). unfold calculate_statistics. unfold index_levels in Hl. unfold nlevels. replace (length (t_names (g_tab g)) =? 1)%nat with false by (symmetry; apply Nat.eqb_neq; lia).
  eexists. split; [reflexivity|]. apply (grouped_spec g agg stats (t_index (g_tab g)) (length (t_names (g_tab g))) Hn Hs Hi). rewrite Forall_forall in Hf. exact Hf.
Qed.

(** ** C147: the bounds of the summary are aggregates of the bounds too *)
Lemma selected_keys {A} (k : A) {B} (keys : list A) (rows : list B) sel : selected (fun p => fst p = k) (combine keys rows) sel -> Forall (fun p => fst p = k) sel.
Proof. induction 1; auto. Qed.
Lemma selected_in {A} (P : A -> Prop) l l' x : selected P l l' -> In x l' -> In x l.
Proof. induction 1; intros Hx; auto; [destruct Hx; [left | right]; auto | right; auto]. Qed.
Lemma in_zip_map {A B} (f : A -> B) l p : In p (combine (map f l) l) -> fst p = f (snd p).
Proof. induction l as [|x l IH]; intros H; [contradiction|]. cbn [map combine] in H. destruct H as [<-|H]; [reflexivity | apply IH; exact H]. Qed.
Definition position_of_bound (c : string) (i : nat) : Prop := nth_error bound_columns i = Some c.
Lemma bounds_nth row i c : position_of_bound c i -> nth i (cell_bounds row) NaN = value c row.
Proof. unfold position_of_bound, bound_columns. intros H. do 6 (destruct i as [|i]; [injection H as <-; reflexivity|]). destruct i; discriminate H. Qed.
Theorem C147_bounds_of_summary g agg stats rs k d c i : NoDup (t_columns (g_tab g)) -> NoDup (map fst stats) -> index_levels g = 1%nat ->
  calculate_statistics g agg stats = Ok rs -> In (k, d) rs -> position_of_bound c i -> (forall c, In c bound_columns -> known_column g c) ->
  exists n, (0 < n)%nat /\ dget d c = Some (agg (repeat (nth i k NaN) n)).
Proof.
  intros Hn Hs Hl Hr Hd Hi Hk. destruct (C146_statistics_by_cell g agg stats Hn Hs Hl Hk) as (rs' & Hr' & G1 & G2 & G3). rewrite Hr in Hr'. injection Hr' as <-.
  destruct (G3 k d Hd) as (sel & Hsel & S1 & _). assert (Hc : In c bound_columns) by (eapply nth_error_In; exact Hi).
  assert (Hgid : c <> "grid_id"%string) by (intros ->; cbn in Hc; intuition discriminate).
  exists (length sel). split.
  - assert (Hin : In k (map fst rs)) by (apply in_map_iff; exists (k, d); auto). apply G2 in Hin. destruct Hin as [Hin _]. apply in_map_iff in Hin. destruct Hin as (row & Hrow & Hin).
    assert (Hp : In (k, row) (combine (map cell_bounds (t_rows (g_tab g))) (t_rows (g_tab g)))).
    { rewrite <- Hrow. clear -Hin. induction (t_rows (g_tab g)) as [|x l IH]; [contradiction|]. cbn [map combine]. destruct Hin as [<-|Hin]; [left; reflexivity | right; apply IH; exact Hin]. }
    clear -Hsel Hp. induction Hsel as [|x l l' Hx H IH|x l l' Hx H IH]; [contradiction | cbn; lia |]. destruct Hp as [->|Hp]; [elim Hx; reflexivity | apply IH; exact Hp].
  - rewrite (S1 c (Hk c Hc) Hgid). f_equal. f_equal. rewrite map_map.
    assert (Hall : forall p, In p sel -> value c (snd p) = nth i k NaN).
    { intros p Hp. assert (Hf := selected_keys _ _ _ _ Hsel). rewrite Forall_forall in Hf. rewrite <- (Hf p Hp). rewrite (in_zip_map cell_bounds (t_rows (g_tab g)) p) by (eapply selected_in; eauto). symmetry. apply bounds_nth. exact Hi. }
    clear -Hall. induction sel as [|p sel IH]; [reflexivity|]. cbn [map repeat length]. rewrite (Hall p (or_introl eq_refl)), IH; [reflexivity|]. intros q Hq. apply Hall. right. exact Hq.
Qed.
(** so they are the bounds of the cell for a mean, median, minimum or maximum *)
Theorem C147_bounds_kept g agg stats rs k d c i : NoDup (t_columns (g_tab g)) -> NoDup (map fst stats) -> index_levels g = 1%nat ->
  calculate_statistics g agg stats = Ok rs -> In (k, d) rs -> position_of_bound c i -> (forall c, In c bound_columns -> known_column g c) ->
  (forall v n, (0 < n)%nat -> agg (repeat v n) = v) -> dget d c = Some (nth i k NaN).
Proof.
  intros H1 H2 H3 H4 H5 H6 H7 Ha. destruct (C147_bounds_of_summary g agg stats rs k d c i H1 H2 H3 H4 H5 H6 H7) as (n & Hn & ->). rewrite Ha by exact Hn. reflexivity.
Qed.

(** ** C148: a grid without depths cannot be summarised *)
Theorem C148_unknown_bound_refuted g agg stats c : index_levels g = 1%nat -> In c bound_columns -> (forall row, In row (t_rows (g_tab g)) -> value c row = NaN) ->
  calculate_statistics g agg stats = Err KeyError.
Proof.
  intros Hl Hc Hv. unfold calculate_statistics. unfold index_levels in Hl. unfold nlevels. rewrite Hl. cbn [Nat.eqb].
  replace (check_required_cols _ bound_columns) with false; [reflexivity|]. symmetry. apply Bool.not_true_is_false. intros K. unfold check_required_cols in K. rewrite forallb_forall in K.
  specialize (K c Hc). apply mem_In in K. apply nonempty_spec in K. destruct K as (_ & row & Hr & Hne). apply Hne. apply Hv. exact Hr.
Qed.
(** exactly then: a grid without an index is summarised if and only if each of the six bounds is
    known in some row; otherwise KeyError, whatever the statistics asked for *)
Theorem C148_exact_condition g agg stats : index_levels g = 1%nat ->
  ((forall c, In c bound_columns -> known_column g c) /\ exists rs, calculate_statistics g agg stats = Ok rs) \/
  ((exists c, In c bound_columns /\ ~ known_column g c) /\ calculate_statistics g agg stats = Err KeyError).
Proof.
  intros Hl. unfold calculate_statistics. unfold index_levels in Hl. unfold nlevels. rewrite Hl. cbn [Nat.eqb].
  destruct (check_required_cols (nonempty_columns (g_tab g)) bound_columns) eqn:E; [left|right]; (split; [|try (eexists; reflexivity); reflexivity]).
  - intros c Hc. unfold check_required_cols in E. rewrite forallb_forall in E. apply nonempty_spec. apply mem_In. apply E. exact Hc.
  - assert (K : exists c, In c bound_columns /\ mem c (nonempty_columns (g_tab g)) = false).
    { clear - E. unfold check_required_cols in E. induction bound_columns as [|c l IH]; [discriminate|]. cbn [forallb] in E. apply andb_false_iff in E. destruct E as [E|E]; [exists c; split; [left; reflexivity|exact E]|].
      destruct (IH E) as (d & Hd & K). exists d. split; [right; exact Hd|exact K]. }
    destruct K as (c & Hc & K). exists c. split; [exact Hc|]. intros H. apply nonempty_spec in H. apply mem_In in H. congruence.
Qed.
Print Assumptions C148_exact_condition.
