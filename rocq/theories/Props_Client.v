(** * C51, C52, C96-C99: the FDSN web service client *)
From Coq Require Import ZArith List Bool Lia String.
From Verif Require Import Base Num Dict Client_model Spec_Client.
Import ListNotations.
Open Scope string_scope.
Open Scope Z_scope.

Section Server.
  Context {T : Type} {NT : Num T} {D E : Type} (strftime : D -> string).
  Notation params := (dict (pval T)).
  (** the keys limit and offset, and the parameters without them *)
  Definition int_of (o : option (pval T)) : option Z := match o with Some (PInt z) => Some z | _ => None end.
  Definition without (p : params) : params := filter (fun kv => negb ((fst kv =? "limit")%string || (fst kv =? "offset")%string)) p.
  (** a server that answers every request with the requested page of a list that depends on
      the other parameters only *)
  Definition honours (server : params -> response E) (all : params -> list E) : Prop := forall p,
    r_events (server p) = page (int_of (dget p "limit")) (int_of (dget p "offset")) (all (without p)) /\
    (r_events (server p) <> [] -> r_status (server p) = 200).

  Lemma page_get (p : params) l o : dget (page_params p l o) "limit" = Some (PInt l) /\ dget (page_params p l o) "offset" = Some (PInt o).
  Proof. unfold page_params, dupdate. cbn [fold_left fst snd]. rewrite !dget_dset. cbn. split; reflexivity. Qed.
  Lemma page_without (p : params) l o : without (page_params p l o) = without p.
  Proof. unfold page_params, dupdate, without. cbn [fold_left fst snd]. set (f := fun k => negb ((k =? "limit")%string || (k =? "offset")%string)). transitivity (filter (fun kv : string * pval T => f (fst kv)) (dset p "limit" (PInt l))); [apply (filter_dset f); reflexivity|apply (filter_dset f); reflexivity]. Qed.

  Context (server : params -> response E) (all : params -> list E) (Hs : honours server all) (p : params) (bs : Z) (Hbs : 1 <= bs).
  Notation L := (all (without p)).
  Notation n := (Z.of_nat (List.length L)).
  Lemma serve_page l o : r_events (server (page_params p l o)) = page (Some l) (Some o) L.
  Proof. destruct (Hs (page_params p l o)) as [-> _]. destruct (page_get p l o) as [-> ->]. rewrite page_without. reflexivity. Qed.
  Lemma exists_iff m : 0 <= m -> exists_with_offset (server (page_params p 1 (m * bs + 1))) = (m <? batches n bs) && negb (n =? 0).
  Proof.
    intros Hm. unfold exists_with_offset. pose proof (proj2 (Hs (page_params p 1 (m * bs + 1)))) as Hst. rewrite serve_page in *. unfold page in *.
    replace (Z.to_nat (m * bs + 1 - 1)) with (Z.to_nat (m * bs)) in * by lia. change (Z.to_nat 1) with 1%nat in *.
    assert (K : n <> 0 -> (m * bs < n <-> m < batches n bs)).
    { intros Hn. unfold batches. split; intros H.
      - assert (m + 1 <= (n + bs - 1) / bs); [|lia]. apply Z.div_le_lower_bound; nia.
      - destruct (Z.max_spec 1 ((n + bs - 1) / bs)) as [[_ E1]|[_ E1]]; rewrite E1 in H.
        + pose proof (Z.mul_div_le (n + bs - 1) bs ltac:(lia)). nia.
        + assert (m = 0) by lia. subst m. lia. }
    assert (Hlen : List.length (skipn (Z.to_nat (m * bs)) L) = Z.to_nat (n - m * bs)) by (rewrite skipn_length; lia).
    destruct (skipn (Z.to_nat (m * bs)) L) as [|x t] eqn:Ex; cbn [firstn List.length] in *.
    - rewrite andb_false_r. symmetry. apply andb_false_iff. destruct (Z.eq_dec n 0) as [H0|H0]; [right; rewrite H0; reflexivity|left]. apply Z.ltb_ge. specialize (K H0). lia.
    - rewrite Hst by discriminate. cbn. symmetry. apply andb_true_iff. assert (n <> 0) by nia. split; [apply Z.ltb_lt; apply K; lia|]. apply negb_true_iff, Z.eqb_neq. assumption.
  Qed.
  Lemma batches_pos : 1 <= batches n bs. Proof. unfold batches. lia. Qed.
  Lemma batches_cover : n <= batches n bs * bs.
  Proof. unfold batches. pose proof (Z.mod_pos_bound (n + bs - 1) bs ltac:(lia)). pose proof (Z.div_mod (n + bs - 1) bs ltac:(lia)). nia. Qed.

  (** the first loop stops at 2^J *)
  Notation J := (Z.to_nat (Z.log2_up (batches n bs))).
  Lemma J_lt k : (2 ^ Z.of_nat k <? batches n bs) = (k <? J)%nat.
  Proof.
    clear Hs Hbs. pose proof batches_pos as B. pose proof (Z.log2_up_nonneg (batches n bs)) as Hn. apply eq_true_iff_eq. rewrite Z.ltb_lt, Nat.ltb_lt.

    rewrite <- (Nat2Z.id k) at 2. rewrite <- Z2Nat.inj_lt by lia. split; intros H.
    - destruct (Z_lt_le_dec (Z.of_nat k) (Z.log2_up (batches n bs))) as [|K]; [assumption|exfalso]. apply Z.log2_up_le_pow2 in K; lia.
    - apply Z.nle_gt. intros K. apply Z.log2_up_le_pow2 in K; lia.
  Qed.
  Lemma grow_run d : forall fuel k, (k + d = J)%nat -> (d < fuel)%nat -> exists log,
    grow server fuel p bs (2 ^ Z.of_nat k) = Some (2 ^ Z.of_nat J, log) /\ List.length log = S d.
  Proof.
    induction d as [|d IH]; intros [|fuel] k Hk Hf; try lia.
    - replace k with J by lia. cbn [grow]. rewrite exists_iff by (apply Z.pow_nonneg; lia). rewrite J_lt, Nat.ltb_irrefl. cbn [andb]. eexists. split; [reflexivity|]. reflexivity.
    - cbn [grow]. rewrite exists_iff by (apply Z.pow_nonneg; lia). rewrite J_lt. rewrite (proj2 (Nat.ltb_lt k J)) by lia.
      assert (Hn0 : negb (n =? 0) = true).
      { apply negb_true_iff, Z.eqb_neq. intros H0. assert (batches n bs = 1). { unfold batches. rewrite H0. rewrite Z.div_small by lia. reflexivity. } rewrite H in Hk. cbn in Hk. lia. }
      rewrite Hn0. cbn [andb]. replace (2 ^ Z.of_nat k * 2) with (2 ^ Z.of_nat (S k)) by (rewrite Nat2Z.inj_succ, Z.pow_succ_r; lia).
      destruct (IH fuel (S k) ltac:(lia) ltac:(lia)) as (log & -> & Hl). eexists. split; [reflexivity|]. cbn. lia.
  Qed.
  (** the second loop finds the last batch *)
  Lemma bisect_run j : forall fuel low high last, (j < fuel)%nat -> 0 <= low -> high - low + 1 < 2 ^ Z.of_nat j -> n <> 0 ->
    batches n bs - 1 <= high -> (low <= batches n bs - 1 \/ last = batches n bs - 1) -> exists log,
    bisect server fuel p bs low high last = Some (batches n bs - 1, log) /\ (List.length log <= j)%nat.
  Proof.
    induction j as [|j IH]; intros [|fuel] low high last Hf Hl Hsz Hn Hh Hlast; try lia; cbn [bisect].
    - cbn in Hsz. rewrite (proj2 (Z.leb_gt low high)) by lia. exists []. cbn. split; [|lia]. destruct Hlast as [?| ->]; [lia|reflexivity].
    - rewrite Nat2Z.inj_succ, Z.pow_succ_r in Hsz by lia. destruct (low <=? high) eqn:Hle.
      + apply Z.leb_le in Hle. set (mid := (low + high) / 2). assert (Hmid : low <= mid <= high /\ mid - low <= high - mid <= mid - low + 1).
        { unfold mid. pose proof (Z.div_mod (low + high) 2 ltac:(lia)). pose proof (Z.mod_pos_bound (low + high) 2 ltac:(lia)). lia. }
        rewrite exists_iff by lia. rewrite (proj2 (Z.eqb_neq n 0)) by exact Hn. cbn [negb]. rewrite andb_true_r. destruct (mid <? batches n bs) eqn:Em.
        * apply Z.ltb_lt in Em. destruct (IH fuel (mid + 1) high mid ltac:(lia) ltac:(lia) ltac:(lia) Hn Hh ltac:(lia)) as (log & -> & Hlog). eexists. split; [reflexivity|]. cbn. lia.
        * apply Z.ltb_ge in Em. destruct (IH fuel low (mid - 1) last ltac:(lia) ltac:(lia) ltac:(lia) Hn ltac:(lia) ltac:(lia)) as (log & -> & Hlog). eexists. split; [reflexivity|]. cbn. lia.
      + apply Z.leb_gt in Hle. exists []. cbn. split; [|lia]. destruct Hlast as [?| ->]; [lia|reflexivity].
  Qed.
  Lemma count_run fuel : (J + 2 < fuel)%nat -> exists log, batch_count server fuel p bs = Some (batches n bs, log) /\ (List.length log <= 2 * J + 3)%nat.
  Proof.
    intros Hf. unfold batch_count. destruct (grow_run J fuel 0 ltac:(lia) ltac:(lia)) as (log1 & G & L1). change (2 ^ Z.of_nat 0) with 1 in G. rewrite G.
    destruct (Z.eq_dec n 0) as [H0|H0].
    - assert (HB : batches n bs = 1). { unfold batches. rewrite H0. rewrite Z.div_small by lia. reflexivity. }
      assert (HJ : J = 0%nat) by (rewrite HB; reflexivity). rewrite HJ in *. change (2 ^ Z.of_nat 0) with 1. change (1 / 2) with 0.
      destruct fuel as [|[|fuel]]; try lia. cbn [bisect]. change (0 <=? 1) with true. cbn iota. change ((0 + 1) / 2) with 0. rewrite exists_iff by lia. rewrite H0. change (negb (0 =? 0)) with false. rewrite andb_false_r. change (0 <=? 0 - 1) with false. cbn iota.
      rewrite H0 in HB. eexists. split; [rewrite HB; reflexivity|]. rewrite app_length. cbn. lia.
    - assert (HJ : 2 ^ Z.of_nat J / 2 <= batches n bs - 1 < 2 ^ Z.of_nat J).
      { pose proof (J_lt J) as K. rewrite Nat.ltb_irrefl in K. apply Z.ltb_ge in K. split; [|lia]. destruct J as [|j] eqn:EJ; [cbn; pose proof batches_pos; lia|].
        rewrite Nat2Z.inj_succ, Z.pow_succ_r by lia. rewrite Z.mul_comm, Z.div_mul by lia. pose proof (J_lt j) as K'. rewrite EJ in K'. rewrite (proj2 (Nat.ltb_lt j (S j))) in K' by lia. apply Z.ltb_lt in K'. lia. }
      set (j := match J with O => 2%nat | _ => S J end). assert (Hj : (J < j <= J + 2)%nat /\ (1 <= J -> j = S J)%nat) by (unfold j; destruct J; lia).
      destruct (bisect_run j fuel (2 ^ Z.of_nat J / 2) (2 ^ Z.of_nat J) 0 ltac:(lia)) as (log2 & -> & L2).
      + apply Z.div_pos; [apply Z.pow_nonneg|]; lia.
      + assert (1 <= 2 ^ Z.of_nat J) by (pose proof batches_pos; lia). destruct J as [|i] eqn:EJ; [reflexivity|]. assert (2 <= 2 ^ Z.of_nat (S i)) by (change 2 with (2 ^ 1) at 1; apply Z.pow_le_mono_r; lia). rewrite (proj2 Hj) by lia. rewrite (Nat2Z.inj_succ (S i)), Z.pow_succ_r by lia. rewrite <- EJ in *. 
        pose proof (Z.div_mod (2 ^ Z.of_nat J) 2 ltac:(lia)). pose proof (Z.mod_pos_bound (2 ^ Z.of_nat J) 2 ltac:(lia)). lia.
      + exact H0.
      + lia.
      + left. lia.
      + eexists. split; [f_equal; f_equal; lia|]. rewrite app_length. destruct J as [|i]; [unfold j in L2; lia|]. rewrite (proj2 Hj) in L2 by lia. lia.
  Qed.
  Lemma pages_concat {X} (l : list X) b k : concat (map (fun i => firstn b (skipn (i * b) l)) (seq 0 k)) = firstn (k * b) l.
  Proof.
    clear Hs Hbs. induction k as [|k IH]; [reflexivity|]. rewrite seq_S, map_app, concat_app, IH. cbn [map concat Nat.add]. rewrite app_nil_r.
    replace (S k * b)%nat with (k * b + b)%nat by lia. rewrite <- (firstn_skipn (k * b) l) at 3. rewrite firstn_app. rewrite firstn_firstn. replace (Nat.min (k * b + b) (k * b))%nat with (k * b)%nat by lia. f_equal.
    destruct (Nat.le_gt_cases (List.length l) (k * b)) as [H|H].
    - rewrite skipn_all2 by exact H. rewrite !firstn_nil. reflexivity.
    - rewrite firstn_length. f_equal. lia.
  Qed.
  Lemma batched_all k : n <= Z.of_nat k * bs -> concat (map (fun q => r_events (server q)) (batch_params p bs (Z.of_nat k))) = L.
  Proof.
    intros Hk. unfold batch_params. rewrite map_map, Nat2Z.id. rewrite (map_ext _ (fun i => firstn (Z.to_nat bs) (skipn (i * Z.to_nat bs) L))).
    - rewrite pages_concat. apply firstn_all2. nia.
    - intros i. rewrite serve_page. unfold page. do 2 f_equal. nia.
  Qed.
End Server.

Section Claims.
  Context {T : Type} {NT : Num T} {D E : Type}.
  Implicit Types (strftime : D -> string) (server : dict (pval T) -> response E) (a : args T D).

  (** C52: for every number of events and every batch size >= 1 the search ends with
      max(1, ceil(n / batch_size)), after at most 2 log2(batches) + 3 requests; any fuel above
      log2(batches) + 2 gives the same *)
  Theorem C52_batch_count : forall server all p bs, honours server all -> 1 <= bs ->
    let n := Z.of_nat (List.length (all (without p))) in
    let J := Z.to_nat (Z.log2_up (batches n bs)) in
    forall fuel, (J + 2 < fuel)%nat -> exists log, batch_count server fuel p bs = Some (batches n bs, log) /\ (List.length log <= 2 * J + 3)%nat.
  Proof. intros server all p bs Hs Hbs n J fuel Hf. apply count_run; assumption. Qed.

  (** C51: downloading in batches gives what a single request gives *)
  Theorem C51_batched_download : forall strftime server all a bs, honours server all -> 1 <= bs ->
    dget (build_params strftime a) "limit" = None -> dget (build_params strftime a) "offset" = None ->
    let batched := mkargs (a_start a) (a_end a) (a_minlat a) (a_maxlat a) (a_minlon a) (a_maxlon a) (a_minmag a) (a_maxmag a) (a_all a) (a_type a) (a_delta a) (Some bs) (a_kwargs a) in
    let single := mkargs (a_start a) (a_end a) (a_minlat a) (a_maxlat a) (a_minlon a) (a_maxlon a) (a_minmag a) (a_maxmag a) (a_all a) (a_type a) (a_delta a) None (a_kwargs a) in
    exists fuel0 events log log1, forall fuel, (fuel0 < fuel)%nat ->
      get_events strftime server fuel batched = Some (events, log) /\ get_events strftime server fuel single = Some (events, log1).
  Proof.
    intros strftime server all a bs Hs Hbs Hl Ho batched single. set (p := build_params strftime a) in *.
    set (n := Z.of_nat (List.length (all (without p)))). set (J := Z.to_nat (Z.log2_up (batches n bs))).
    assert (Hone : r_events (server p) = all (without p)). { destruct (Hs p) as [-> _]. rewrite Hl, Ho. reflexivity. }
    assert (C : exists log, forall fuel, (J + 2 < fuel)%nat -> batch_count server fuel p bs = Some (batches n bs, log)).
    { destruct (count_run server all Hs p bs Hbs (S (J + 2)) (Nat.lt_succ_diag_r (J + 2))) as (log0 & E0 & _). exists log0. intros fuel Hf.
      (* more fuel does not change the result *)
      assert (G : forall f1 f2 c r, (f1 <= f2)%nat -> grow server f1 p bs c = Some r -> grow server f2 p bs c = Some r).
      { induction f1 as [|f1 IH]; intros [|f2] c r Hle H; cbn [grow] in *; try discriminate; [lia|]. destruct (exists_with_offset _); [|exact H]. destruct (grow server f1 p bs (c * 2)) as [[x y]|] eqn:F; [|discriminate]. rewrite (IH f2 _ _ ltac:(lia) F). exact H. }
      assert (B : forall f1 f2 l h s r, (f1 <= f2)%nat -> bisect server f1 p bs l h s = Some r -> bisect server f2 p bs l h s = Some r).
      { induction f1 as [|f1 IH]; intros [|f2] l h s r Hle H; cbn [bisect] in *; try discriminate; [lia|]. destruct (l <=? h); [|exact H]. destruct (exists_with_offset _).
        - destruct (bisect server f1 p bs _ _ _) as [[x y]|] eqn:F; [|discriminate]. rewrite (IH f2 _ _ _ _ ltac:(lia) F). exact H.
        - destruct (bisect server f1 p bs _ _ _) as [[x y]|] eqn:F; [|discriminate]. rewrite (IH f2 _ _ _ _ ltac:(lia) F). exact H. }
      unfold batch_count in *. destruct (grow server (S (J + 2)) p bs 1) as [[c l1]|] eqn:F1; [|discriminate]. rewrite (G (S (J + 2)) fuel _ _ ltac:(lia) F1).
      destruct (bisect server (S (J + 2)) p bs (c / 2) c 0) as [[c2 l2]|] eqn:F2; [|discriminate]. rewrite (B (S (J + 2)) fuel _ _ _ _ ltac:(lia) F2). exact E0. }
    destruct C as (log & C). exists (J + 2)%nat, (all (without p)), (app log (batch_params p bs (batches n bs))), [p].
    intros fuel Hf. unfold get_events. cbn [a_batch batched single]. change (build_params strftime batched) with p. change (build_params strftime single) with p.
    rewrite C by exact Hf. split; [|rewrite Hone; reflexivity]. f_equal. f_equal.
    assert (Hb : 1 <= batches n bs) by apply batches_pos. rewrite <- (Z2Nat.id (batches n bs)) by lia. apply batched_all; [exact Hs|exact Hbs|]. rewrite Z2Nat.id by lia. apply batches_cover. exact Hbs.
  Qed.

  (** C96: batch_size = 0 never ends if there are events *)
  Theorem C96_batch_size_zero_refuted : forall strftime server all a, honours server all -> a_batch a = Some 0 ->
    all (without (build_params strftime a)) <> [] -> forall fuel, get_events strftime server fuel a = None.
  Proof.
    intros strftime server all a Hs Hb Hne fuel. unfold get_events. rewrite Hb. unfold batch_count. set (p := build_params strftime a) in *.
    assert (G : forall c, grow server fuel p 0 c = None); [|rewrite G; reflexivity].
    induction fuel as [|fuel IH]; intros c; [reflexivity|]. cbn [grow]. rewrite Z.mul_0_r. change (0 + 1) with 1.
    unfold exists_with_offset. pose proof (Hs (page_params p 1 1)) as [E1 E2]. rewrite E1 in *. destruct (page_get p 1 1) as [G1 G2]. rewrite G1, G2, page_without in *. cbn [int_of page] in *. change (Z.to_nat (1 - 1)) with 0%nat in *. change (Z.to_nat 1) with 1%nat in *.
    destruct (all (without p)) as [|x t]; [congruence|]. cbn [skipn firstn] in *. rewrite E2 by discriminate. cbn. rewrite IH. reflexivity.
  Qed.

  (** C97: a limit passed to the service is lost when downloading in batches *)
  Theorem C97_limit_with_batches_refuted : forall strftime server all a bs k, honours server all -> 1 <= bs -> a_batch a = Some bs ->
    dget (build_params strftime a) "limit" = Some (PInt k) -> dget (build_params strftime a) "offset" = None ->
    0 <= k < Z.of_nat (List.length (all (without (build_params strftime a)))) ->
    exists fuel events log, get_events strftime server fuel a = Some (events, log) /\
      Z.of_nat (List.length (r_events (server (build_params strftime a)))) = k /\ k < Z.of_nat (List.length events).
  Proof.
    intros strftime server all a bs k Hs Hbs Hb Hl Ho Hk. set (p := build_params strftime a) in *. set (n := Z.of_nat (List.length (all (without p)))) in *. set (J := Z.to_nat (Z.log2_up (batches n bs))).
    destruct (count_run server all Hs p bs Hbs (S (J + 2)) (Nat.lt_succ_diag_r (J + 2))) as (log & C & _). exists (S (J + 2)), (all (without p)), (app log (batch_params p bs (batches n bs))).
    unfold get_events. rewrite Hb. fold p. rewrite C. assert (HB : 1 <= batches n bs) by apply batches_pos. split; [|split; [|fold n; lia]].
    - fold n. f_equal. f_equal. rewrite <- (Z2Nat.id (batches n bs)) by lia. apply batched_all; [exact Hs|exact Hbs|]. rewrite Z2Nat.id by lia. apply batches_cover. exact Hbs.
    - destruct (Hs p) as [-> _]. rewrite Hl, Ho. cbn [int_of page]. rewrite firstn_length. unfold n in Hk. lia.
  Qed.
End Claims.
Print Assumptions C51_batched_download.
Print Assumptions C52_batch_count.
Print Assumptions C96_batch_size_zero_refuted.
Print Assumptions C97_limit_with_batches_refuted.

(** ** C98: the requests sent *)
Lemma set_opt_get {T A} (p : dict (pval T)) k (f : A -> pval T) o k' : dget (set_opt p k f o) k' = if (k' =? k)%string then match o with Some x => Some (f x) | None => dget p k' end else dget p k'.
Proof. unfold set_opt. destruct o; [apply dget_dset|destruct (_ =? _)%string; reflexivity]. Qed.
Section Sent.
  Context {T : Type} {NT : Num T} {D E : Type}.
  Implicit Types (strftime : D -> string) (server : dict (pval T) -> response E) (a : args T D).
  (** the documented parameters, by name *)
  Definition documented strftime a (k : string) : option (pval T) :=
    if (k =? "starttime")%string then option_map (fun t => PStr (strftime t)) (a_start a)
    else if (k =? "endtime")%string then option_map (fun t => PStr (strftime t)) (a_end a)
    else if (k =? "minlatitude")%string then option_map PNum (a_minlat a)
    else if (k =? "maxlatitude")%string then option_map PNum (a_maxlat a)
    else if (k =? "minlongitude")%string then option_map PNum (a_minlon a)
    else if (k =? "maxlongitude")%string then option_map PNum (a_maxlon a)
    else if (k =? "minmagnitude")%string then
      option_map (fun m => PNum (match a_delta a with Some dm => nsub m (ndiv dm (ofZ 2)) | None => m end)) (a_minmag a)
    else if (k =? "maxmagnitude")%string then option_map PNum (a_maxmag a)
    else if (k =? "includeallmagnitudes")%string then option_map PBool (a_all a)
    else if (k =? "eventtype")%string then option_map PStr (a_type a)
    else None.
  (** an additional keyword argument wins, otherwise the documented parameter is sent if and only
      if the argument is given; nothing else is sent *)
  Theorem C98_parameters : forall strftime a k, NoDup (map fst (a_kwargs a)) ->
    dget (build_params strftime a) k = match dget (a_kwargs a) k with Some v => Some v | None => documented strftime a k end.
  Proof.
    intros strftime a k Hn. unfold build_params. rewrite dget_dupdate by exact Hn. destruct (dget (a_kwargs a) k); [reflexivity|]. rewrite !set_opt_get. unfold documented.
    assert (M : forall p : dict (pval T), dget match a_minmag a with Some m => match a_delta a with Some dm => dset p "minmagnitude" (PNum (m - dm / two)%num) | None => dset p "minmagnitude" (PNum m) end | None => p end k =
      if (k =? "minmagnitude")%string then match a_minmag a with Some m => Some (PNum (match a_delta a with Some dm => nsub m (ndiv dm (ofZ 2)) | None => m end)) | None => dget p k end else dget p k).
    { intros p. destruct (a_minmag a) as [m|]; [|destruct (_ =? _)%string; reflexivity]. destruct (a_delta a); rewrite dget_dset; reflexivity. }
    rewrite M, !set_opt_get. clear M. cbn [dget].
    repeat match goal with |- context [(k =? ?s)%string] => destruct (String.eqb_spec k s); [subst k; cbn; repeat match goal with |- context [match ?o with Some _ => _ | None => _ end] => destruct o end; reflexivity|] end. reflexivity.
  Qed.
  (** every request of a batched download carries the same parameters apart from limit and offset *)
  Theorem C98_same_filters : forall strftime server fuel a events log, get_events strftime server fuel a = Some (events, log) ->
    forall q, In q log -> without q = without (build_params strftime a).
  Proof.
    intros strftime server fuel a events log H q Hq. unfold get_events in H. set (p := build_params strftime a) in *.
    destruct (a_batch a) as [bs|]; [|injection H as _ <-; destruct Hq as [<-|[]]; reflexivity].
    assert (G : forall fuel c r log, grow server fuel p bs c = Some (r, log) -> forall q, In q log -> without q = without p).
    { clear. induction fuel as [|f IH]; intros c r log H q Hq; cbn [grow] in H; [discriminate|]. destruct (exists_with_offset _).
      - destruct (grow server f p bs (c * 2)) as [[x y]|] eqn:F; [|discriminate]. injection H as _ <-. destruct Hq as [<-|Hq]; [apply page_without|exact (IH _ _ _ F _ Hq)].
      - injection H as _ <-. destruct Hq as [<-|[]]. apply page_without. }
    assert (B : forall fuel l h s r log, bisect server fuel p bs l h s = Some (r, log) -> forall q, In q log -> without q = without p).
    { clear. induction fuel as [|f IH]; intros l h s r log H q Hq; cbn [bisect] in H; [discriminate|]. destruct (l <=? h); [|injection H as _ <-; destruct Hq].
      match type of H with match ?e with _ => _ end = _ => destruct e as [[x y]|] eqn:F; [|discriminate] end. injection H as _ <-. destruct Hq as [<-|Hq]; [apply page_without|].
      destruct (exists_with_offset _); exact (IH _ _ _ _ _ F _ Hq). }
    unfold batch_count in H. destruct (grow server fuel p bs 1) as [[c l1]|] eqn:F1; [|discriminate]. destruct (bisect server fuel p bs (c / 2) c 0) as [[c2 l2]|] eqn:F2; [|discriminate].
    injection H as _ <-. rewrite !in_app_iff in Hq. destruct Hq as [[Hq|Hq]|Hq]; [exact (G _ _ _ _ F1 _ Hq)|exact (B _ _ _ _ _ _ F2 _ Hq)|].
    unfold batch_params in Hq. apply in_map_iff in Hq. destruct Hq as (i & <- & _). apply page_without.
  Qed.
End Sent.
Print Assumptions C98_parameters.
Print Assumptions C98_same_filters.

(** ** concrete cases: a server with a fixed list of events *)
Section Concrete.
  Context {T : Type} {NT : Num T}.
  Definition list_server (l : list nat) (p : dict (pval T)) : response nat :=
    let ev := page (int_of (dget p "limit")) (int_of (dget p "offset")) l in
    mkresp (match ev with [] => 204 | _ => 200 end) ev.
  Lemma list_server_honours l : honours (list_server l) (fun _ => l).
  Proof. intros p. unfold list_server. cbn [r_events r_status]. split; [reflexivity|]. destruct (page _ _ _); [congruence|reflexivity]. Qed.
  Definition all_events (b : option Z) (kw : dict (pval T)) : args T unit := mkargs None None None None None None None None None None None b kw.
  Example C51_case : exists log, get_events (fun _ => "") (list_server (seq 0 7)) 10 (all_events (Some 3) []) = Some (seq 0 7, log) /\ List.length log = (3 + 2 + 3)%nat.
  Proof. eexists. split; vm_compute; reflexivity. Qed.
  Example C97_case : exists log, get_events (fun _ => "") (list_server (seq 0 7)) 10 (all_events (Some 3) [("limit", PInt 2)]) = Some (seq 0 7, log).
  Proof. eexists. vm_compute. reflexivity. Qed.
  Example C96_case : forall fuel, get_events (fun _ => "") (list_server (seq 0 7)) fuel (all_events (Some 0) []) = None.
  Proof. apply (C96_batch_size_zero_refuted _ _ (fun _ => seq 0 7)); [apply list_server_honours|reflexivity|discriminate]. Qed.
End Concrete.
