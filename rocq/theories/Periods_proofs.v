(** * The Kijko-Smit and Weichert models over exact reals *)
From Coq Require Import Reals Lra List Lia ZArith Sorted Permutation Bool String.
From Verif Require Import Base Num XR RList SortLib BValue_model Spec_BValue Likelihood Periods_model Spec_Periods Weichert_real.
Import ListNotations.
Open Scope R_scope.

Definition emb (r : R * R) : xr * xr := (Fin (fst r), Fin (snd r)).
Lemma zip_emb (ev : list (R * R)) : zip (map Fin (map fst ev)) (map Fin (map snd ev)) = map emb ev.
Proof. induction ev as [|e ev IH]; [reflexivity|]. cbn [map zip]. rewrite IH. reflexivity. Qed.
Lemma fst_emb tb : map fst (map emb tb) = map Fin (map fst tb).
Proof. rewrite !map_map. reflexivity. Qed.

(** ** the checks *)
Lemma ascending_rising tb : rising_mags tb -> ascending (map fst (map emb tb)) = true.
Proof.
  intros H. rewrite fst_emb. induction H as [|r tb H IH F]; [reflexivity|].
  destruct tb as [|r' tb]; [reflexivity|]. cbn [map] in *.
  change (ascending (Fin (fst r) :: Fin (fst r') :: map Fin (map fst tb)))
    with ((nleb zero (nsub (Fin (fst r')) (Fin (fst r)))) && ascending (Fin (fst r') :: map Fin (map fst tb))).
  rewrite IH, andb_true_r, x_sub, x_zero, x_leb. apply rle_true. inversion_clear F. lra.
Qed.
Lemma checks_ok ev tb d par : ev <> [] -> tb <> [] -> rising_mags tb -> 0 < d -> par = "b_value"%string \/ par = "beta"%string ->
  period_checks (map Fin (map fst ev)) (map Fin (map snd ev)) (map emb tb) (Fin d) par = Ok tt.
Proof.
  intros He Ht Hr Hd Hp. unfold period_checks. rewrite !map_length, Nat.eqb_refl. cbn [assert_ rbind].
  rewrite ascending_rising by exact Hr. cbn [assert_ rbind].
  destruct ev as [|e ev]; [congruence|]. destruct tb as [|r tb]; [congruence|]. cbn [map rbind].
  rewrite x_zero, x_ltb. replace (rlt 0 d) with true by (symmetry; apply rlt_true; exact Hd). cbn [assert_ rbind].
  destruct Hp as [-> | ->]; reflexivity.
Qed.
Lemma last_year_ok given (ev : list (R * R)) ly : last_year_is given (map snd ev) ly ->
  the_last_year (option_map Fin given) (map Fin (map snd ev)) = Fin ly.
Proof.
  intros [[-> H]|(-> & Hi & Hm)]; unfold the_last_year; cbn [option_map].
  - rewrite x_zero, x_eqb. replace (req ly 0) with false by (symmetry; apply req_false; exact H). reflexivity.
  - destruct (map snd ev) as [|y ys]; [destruct Hi|]. cbn [map]. rewrite x_amax. apply f_equal.
    apply Rle_antisym; [apply Hm; apply Rmaxl_in|apply Rmaxl_ge; exact Hi].
Qed.

(** ** Kijko-Smit *)
Definition pidx (tb : list (R * R)) (y : R) : nat := List.length (filter (fun r => rlt y (snd r)) tb).
Lemma period_index_emb tb y : period_index (map emb tb) (Fin y) = pidx tb y.
Proof.
  unfold period_index, searchsorted, pidx. rewrite map_map, filter_map_swap, map_length. f_equal. apply filter_ext. intros r.
  cbn [emb snd]. rewrite !x_opp, x_ltb. destruct (rlt y (snd r)) eqn:E.
  - apply rlt_true in E. apply rlt_true. lra.
  - apply rlt_false in E. apply rlt_false. lra.
Qed.
Lemma nth_period tb y : falling_years tb -> nth_error tb (pidx tb y) = period_of tb y.
Proof.
  induction 1 as [|r tb H IH F]; [reflexivity|]. cbn [period_of]. destruct (Rle_dec (snd r) y) as [L|L].
  - unfold pidx. cbn [filter]. replace (rlt y (snd r)) with false by (symmetry; apply rlt_false; exact L).
    replace (filter (fun r0 : R * R => rlt y (snd r0)) tb) with (@nil (R * R)); [reflexivity|].
    symmetry. clear IH H. induction tb as [|r' tb IH]; [reflexivity|]. inversion_clear F as [|? ? F1 F2]. cbn [filter].
    replace (rlt y (snd r')) with false by (symmetry; apply rlt_false; lra). apply IH. exact F2.
  - unfold pidx in *. cbn [filter]. replace (rlt y (snd r)) with true by (symmetry; apply rlt_true; lra). cbn [List.length nth_error]. exact IH.
Qed.
Definition subR (tb ev : list (R * R)) (ir : nat * (R * R)) : list (R * R) :=
  filter (fun e => (pidx tb (snd e) =? fst ir)%nat && rlt (fst (snd ir)) (fst e)) ev.
Definition irows (tb : list (R * R)) : list (nat * (R * R)) := zip (seq 0 (List.length tb)) tb.
Definition mags_of (l : list (R * R)) : list xr := map Fin (map fst l).
Lemma sub_catalogues_emb tb ev : sub_catalogues (map emb tb) (map emb ev) = map (fun ir => mags_of (subR tb ev ir)) (irows tb).
Proof.
  unfold sub_catalogues, irows. rewrite map_length. rewrite <- (map_id (seq 0 (List.length tb))) at 1. rewrite zip_map, map_map.
  apply map_ext. intros [i r]. cbn [fst snd]. unfold sub_catalogue, mags_of, subR. rewrite filter_map_swap, !map_map. cbn [emb fst snd].
  f_equal. apply filter_ext. intros e. cbn [emb fst snd]. rewrite period_index_emb. reflexivity.
Qed.
Lemma map2_irows {B} (f : nat * (R * R) -> list xr) (g : list xr -> xr * xr -> B) tb :
  map2 g (map f (irows tb)) (map emb tb) = map (fun ir => g (f ir) (emb (snd ir))) (irows tb).
Proof.
  unfold irows. generalize 0%nat. induction tb as [|r tb IH]; intros k; [reflexivity|]. cbn [List.length seq zip map map2 snd].
  f_equal. apply IH.
Qed.
Lemma pick_sum tb (q : R * R -> bool) (g : R * R -> R) k j :
  Rsum (map (fun ir => if (k + j =? fst ir)%nat && q (snd ir) then g (snd ir) else 0) (zip (seq k (List.length tb)) tb))
  = match nth_error tb j with Some r => if q r then g r else 0 | None => 0 end.
Proof.
  revert k j. induction tb as [|r tb IH]; intros k j.
  - cbn. destruct j; reflexivity.
  - cbn [List.length seq zip map]. rewrite Rsum_cons. cbn [fst snd]. destruct j as [|j].
    + rewrite Nat.add_0_r, Nat.eqb_refl. cbn [andb nth_error].
      replace (Rsum _) with 0; [destruct (q r); lra|]. symmetry.
      transitivity (Rsum (map (fun _ : nat * (R * R) => 0) (zip (seq (S k) (List.length tb)) tb))).
      * apply Rsum_map_ext. intros [i r'] Hi. cbn [fst]. apply zip_in_l in Hi. apply in_seq in Hi. cbn [fst] in Hi.
        replace (k =? i)%nat with false by (symmetry; apply Nat.eqb_neq; lia). reflexivity.
      * rewrite Rsum_map_const. ring.
    + replace (k + S j =? k)%nat with false by (symmetry; apply Nat.eqb_neq; lia). cbn [andb nth_error].
      rewrite <- (IH (S k) j). replace (k + S j)%nat with (S k + j)%nat by lia. lra.
Qed.
Lemma used_sum tb ev (g : (R * R) * (R * R) -> R) : falling_years tb ->
  Rsum (map (fun ir => Rsum (map (fun e => g (e, snd ir)) (subR tb ev ir))) (irows tb)) = Rsum (map g (used tb ev)).
Proof.
  intros Hf. induction ev as [|e ev IH].
  - unfold subR. cbn [filter map used flat_map]. rewrite Rsum_map_const. unfold Rsum. cbn. ring.
  - cbn [used flat_map]. rewrite map_app, Rsum_app. change (flat_map (used_of tb) ev) with (used tb ev). rewrite <- IH.
    transitivity (Rsum (map (fun ir => (if (pidx tb (snd e) =? fst ir)%nat && rlt (fst (snd ir)) (fst e) then g (e, snd ir) else 0)
                             + Rsum (map (fun e => g (e, snd ir)) (subR tb ev ir))) (irows tb))).
    + apply Rsum_map_ext. intros ir _. unfold subR. cbn [filter].
      destruct ((pidx tb (snd e) =? fst ir)%nat && rlt (fst (snd ir)) (fst e)); cbn [map]; rewrite ?Rsum_cons; lra.
    + rewrite Rsum_map_plus. f_equal. unfold irows.
      etransitivity; [exact (pick_sum tb (fun r => rlt (fst r) (fst e)) (fun r => g (e, r)) 0 (pidx tb (snd e)))|].
      rewrite nth_period by exact Hf. unfold used_of. destruct (period_of tb (snd e)) as [r|]; [|reflexivity].
      unfold rlt. destruct (Rlt_dec (fst r) (fst e)); cbn; lra.
Qed.
Definition total_excess (tb ev : list (R * R)) : R := Rsum (map excess_mag (used tb ev)).
Lemma INR_list_sum l : INR (list_sum l) = Rsum (map INR l).
Proof. induction l as [|a l IH]; [reflexivity|]. cbn [map list_sum fold_right]. change (fold_right Init.Nat.add 0%nat l) with (list_sum l). rewrite plus_INR, IH. reflexivity. Qed.
Lemma ncomplete_used tb ev : falling_years tb ->
  list_sum (map (@List.length xr) (sub_catalogues (map emb tb) (map emb ev))) = List.length (used tb ev).
Proof.
  intros Hf. apply INR_eq. rewrite INR_list_sum, sub_catalogues_emb, !map_map.
  rewrite <- (Rmult_1_r (INR (List.length (used tb ev)))), <- (Rsum_map_const 1 (used tb ev)).
  rewrite <- (used_sum tb ev (fun _ => 1)) by exact Hf. apply Rsum_map_ext. intros ir _.
  unfold mags_of. rewrite !map_length, Rsum_map_const. ring.
Qed.
Lemma sub_above tb ev ir e : In e (subR tb ev ir) -> fst (snd ir) < fst e.
Proof. unfold subR. intros H. apply filter_In in H. destruct H as [_ H]. apply andb_true_iff in H. apply rlt_true. apply H. Qed.
Lemma used_excess_pos tb ev p : In p (used tb ev) -> 0 < excess_mag p.
Proof.
  unfold used. intros H. apply in_flat_map in H. destruct H as (e & _ & H). unfold used_of in H.
  destruct (period_of tb (snd e)) as [r|]; [|destruct H]. destruct (Rlt_dec (fst r) (fst e)) as [L|]; [|destruct H].
  destruct H as [<-|[]]. unfold excess_mag. cbn [fst snd]. lra.
Qed.
Lemma irows_in tb ir : In ir (irows tb) -> nth_error tb (fst ir) = Some (snd ir).
Proof.
  unfold irows. intros H. assert (G : forall k, In ir (zip (seq k (List.length tb)) tb) -> (k <= fst ir)%nat /\ nth_error tb (fst ir - k) = Some (snd ir)).
  { clear. induction tb as [|r tb IH]; intros k H; [destruct H|]. cbn [List.length seq zip] in H. destruct H as [<-|H].
    - cbn [fst snd]. rewrite Nat.sub_diag. split; [lia|reflexivity].
    - destruct (IH (S k) H) as [L E]. split; [lia|]. replace (fst ir - k)%nat with (S (fst ir - S k)) by lia. exact E. }
  destruct (G 0%nat H) as [_ E]. rewrite Nat.sub_0_r in E. exact E.
Qed.
Lemma falling_nth_inj tb i j r : falling_years tb -> nth_error tb i = Some r -> nth_error tb j = Some r -> i = j.
Proof.
  intros H. revert i j. induction H as [|r' tb H IH F]; intros i j Hi Hj; [destruct i; discriminate|].
  rewrite Forall_forall in F.
  destruct i as [|i], j as [|j]; cbn [nth_error] in Hi, Hj; [reflexivity| | |f_equal; apply IH; assumption].
  - injection Hi as ->. apply nth_error_In in Hj. apply F in Hj. lra.
  - injection Hj as ->. apply nth_error_In in Hi. apply F in Hi. lra.
Qed.
Lemma sub_iff tb ev ir e : falling_years tb -> In ir (irows tb) -> (In e (subR tb ev ir) <-> In (e, snd ir) (used tb ev)).
Proof.
  intros Hf Hi. apply irows_in in Hi. unfold subR, used. rewrite filter_In, in_flat_map, andb_true_iff, Nat.eqb_eq. split.
  - intros (He & Hp & Hm). exists e. split; [exact He|]. unfold used_of. rewrite <- nth_period by exact Hf. rewrite Hp, Hi.
    apply rlt_true in Hm. destruct (Rlt_dec _ _); [left; reflexivity|contradiction].
  - intros (e' & He & Hu). unfold used_of in Hu. destruct (period_of tb (snd e')) as [r|] eqn:E; [|destruct Hu].
    destruct (Rlt_dec (fst r) (fst e')) as [L|]; [|destruct Hu]. destruct Hu as [Hu|[]]. injection Hu as -> ->.
    rewrite <- nth_period in E by exact Hf. repeat split; [exact He| |apply rlt_true; exact L].
    apply (falling_nth_inj tb _ _ _ Hf E Hi).
Qed.

Lemma ks_beta_value tb ev : falling_years tb -> tb <> [] -> every_period_has_events tb ev ->
  ks_beta (map emb tb) (sub_catalogues (map emb tb) (map emb ev)) (List.length (used tb ev))
  = Ok (Fin (INR (List.length (used tb ev)) / total_excess tb ev)) /\ 0 < total_excess tb ev /\ 0 < INR (List.length (used tb ev)).
Proof.
  intros Hf Ht Hev. set (n := List.length (used tb ev)).
  assert (Hu : used tb ev <> []).
  { destruct tb as [|r tb']; [congruence|]. destruct (Hev r (or_introl eq_refl)) as (e & He). intros E. rewrite E in He. destruct He. }
  assert (Hn : (0 < n)%nat) by (unfold n; destruct (used tb ev); [congruence|cbn; lia]).
  assert (HN : 0 < INR n) by (apply lt_0_INR; exact Hn).
  assert (HS : 0 < total_excess tb ev).
  { apply Rsum_pos_nonempty; [destruct (used tb ev); [congruence|discriminate]|]. intros x Hx. apply in_map_iff in Hx.
    destruct Hx as (p & <- & Hp). apply (used_excess_pos tb ev). exact Hp. }
  split; [|split; assumption]. unfold ks_beta. replace (n =? 0)%nat with false by (symmetry; apply Nat.eqb_neq; lia).
  rewrite sub_catalogues_emb, map2_irows. apply f_equal.
  transitivity (ndiv one (nsum (map Fin (map (fun ir => / INR n * Rsum (map (fun e => excess_mag (e, snd ir)) (subR tb ev ir))) (irows tb))))).
  - do 2 f_equal. rewrite map_map. apply map_ext_in. intros ir Hir.
    assert (Hne : subR tb ev ir <> []).
    { destruct (Hev (snd ir)) as (e & He). { apply irows_in in Hir. apply nth_error_In in Hir. exact Hir. }
      apply (sub_iff tb ev ir e Hf Hir) in He. intros E. rewrite E in He. destruct He. }
    unfold mags_of. rewrite x_mean by (destruct (subR tb ev ir); [congruence|discriminate]). rewrite !map_length. cbn [emb fst].
    set (s := subR tb ev ir) in *. set (c := fst (snd ir)).
    assert (HL : 0 < INR (List.length s)) by (apply lt_0_INR; destruct s; [congruence|cbn; lia]).
    assert (Eex : Rsum (map (fun e => excess_mag (e, snd ir)) s) = Rsum (map fst s) - INR (List.length s) * c).
    { unfold excess_mag. cbn [fst snd]. fold c. rewrite <- Rsum_map_const with (l := s). clear.
      induction s as [|e s IH]; cbn [map]; rewrite ?Rsum_cons; [unfold Rsum; cbn; ring|]. rewrite IH. ring. }
    assert (Hpos : 0 < Rsum (map (fun e => excess_mag (e, snd ir)) s)).
    { apply Rsum_pos_nonempty; [destruct s; [congruence|discriminate]|]. intros x Hx. apply in_map_iff in Hx. destruct Hx as (e & <- & He).
      pose proof (sub_above tb ev ir e He). unfold excess_mag. cbn [fst snd]. lra. }
    rewrite x_sub, x_one. assert (Hd : 0 < Rsum (map fst s) / INR (List.length s) - c).
    { rewrite Eex in Hpos. apply Rmult_lt_reg_r with (INR (List.length s)); [exact HL|].
      replace ((Rsum (map fst s) / INR (List.length s) - c) * INR (List.length s)) with (Rsum (map fst s) - INR (List.length s) * c) by (field; lra). lra. }
    rewrite (x_div 1) by lra. rewrite !x_ofnat, x_div by lra. rewrite x_div.
    + apply f_equal. rewrite Eex.
      assert (Hw : Rsum (map fst s) - c * INR (List.length s) <> 0).
      { replace (Rsum (map fst s) - c * INR (List.length s)) with ((Rsum (map fst s) / INR (List.length s) - c) * INR (List.length s)) by (field; lra).
        apply Rgt_not_eq. apply Rmult_lt_0_compat; lra. }
      field. repeat split; first [exact Hw | lra].
    + apply Rgt_not_eq. apply Rdiv_lt_0_compat; lra.
  - rewrite x_sum, Rsum_map_scal. rewrite (used_sum tb ev excess_mag) by exact Hf. fold (total_excess tb ev). rewrite x_one, x_div.
    + apply f_equal. field. lra.
    + apply Rgt_not_eq. apply Rmult_lt_0_compat; [apply Rinv_0_lt_compat|]; lra.
Qed.
