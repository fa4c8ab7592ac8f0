(** * More about the frequency-magnitude distribution (C06, C08): no weights, left bin edges *)
From Coq Require Import ZArith List Bool Reals Lia Lra Sorted.
From Verif Require Import Base Num XR RList Binning_model Spec_Binning Binning_proofs Fmd_proofs Props_Binning.
Import ListNotations.
Open Scope R_scope.

(** ** C06, C08: without weights every magnitude counts once; for every arithmetic *)
Theorem C06_no_weights : forall T (N : Num T) (mags : list T) delta pos,
  get_fmd mags delta None pos = get_fmd mags delta (Some (map (fun _ => one) mags)) pos.
Proof.
  intros T N mags delta pos. unfold get_fmd. destruct (nleb (dec_val delta) zero); [reflexivity|].
  unfold bin_to_precision at 1 3. destruct (nltb (dec_val delta) EPSILON); [reflexivity|]. cbn [rbind].
  remember (map (bin_elem delta) mags) as binned eqn:E.
  assert (L : length (map (fun _ => one) mags) = length binned) by (rewrite E, !map_length; reflexivity).
  assert (U : unit_weights binned = map (fun _ => one) mags) by (rewrite E; unfold unit_weights; rewrite map_map; reflexivity).
  destruct binned as [|b0 bt]; [reflexivity|]. rewrite L, Nat.eqb_refl, U. reflexivity.
Qed.
Theorem C08_no_weights : forall T (N : Num T) (mags : list T) delta pos,
  get_cum_fmd mags delta None pos = get_cum_fmd mags delta (Some (map (fun _ => one) mags)) pos.
Proof.
  intros T N mags delta pos. unfold get_cum_fmd. destruct (neqb (dec_val delta) zero); [|rewrite C06_no_weights; reflexivity].
  rewrite map_length, Nat.eqb_refl. reflexivity.
Qed.
(** left edges: the same counts, bins lower by half a bin width *)
Theorem C08_left : forall xs ws delta, xs <> [] -> epsR <= decR delta -> length ws = length xs ->
  exists bins counts binned,
    get_cum_fmd (map Fin xs) delta (Some ws) Center = Ok (map Fin bins, counts, binned) /\
    get_cum_fmd (map Fin xs) delta (Some ws) LeftEdge = Ok (map (fun b => Fin (b - decR delta / 2)) bins, counts, binned).
Proof.
  intros xs ws delta Hne He Hl. pose proof epsR_bounds. destruct (C06_get_fmd_left xs ws delta Hne He Hl) as (bins & counts & binned & E1 & E2).
  exists bins. unfold get_cum_fmd. rewrite E1, E2.
  assert (Z : neqb (dec_val delta) zero = false).
  { rewrite x_dec_val. unfold zero. cbn. unfold req. destruct (Req_EM_T (decR delta) 0); [lra|reflexivity]. }
  rewrite Z. cbn [rbind]. do 2 eexists. split; reflexivity.
Qed.
(** the last cumulative count is that of the last bin alone; for every arithmetic *)
Theorem C08_last_count : forall T (N : Num T) (mags : list T) delta ws pos bins counts binned,
  neqb (dec_val delta) zero = false -> get_fmd mags delta ws pos = Ok (bins, counts, binned) ->
  exists cum, get_cum_fmd mags delta ws pos = Ok (bins, cum, binned) /\ length cum = length counts /\ (forall d, last cum d = last counts d).
Proof.
  intros T N mags delta ws pos bins counts binned Z E. unfold get_cum_fmd. rewrite Z, E. cbn [rbind]. eexists. split; [reflexivity|].
  assert (L : forall (l : list T) a, length (cumsum_from a l) = length l) by (induction l as [|x l IH]; intros a; [reflexivity|]; cbn; rewrite IH; reflexivity).
  rewrite <- (rev_involutive counts). generalize (rev counts) as l. intros l. rewrite rev_involutive. destruct l as [|x t]; [split; reflexivity|].
  cbn [np_cumsum]. rewrite !rev_length. cbn [length rev]. rewrite L. split; [reflexivity|]. intros d. rewrite !last_last. reflexivity.
Qed.
Print Assumptions C06_no_weights.
Print Assumptions C08_no_weights.
Print Assumptions C08_left.
Print Assumptions C08_last_count.
(** magnitudes 1.0, 1.2, 1.2 with bin width 0.1 *)
Example C08_example2 : [1; 12 / 10; 12 / 10] <> [] /\ epsR <= decR (mkdec 1 (-1)) /\ length [1; 1; 1] = length [1; 12 / 10; 12 / 10].
Proof. unfold decR, epsR; simpl. split; [discriminate|]. split; [lra|reflexivity]. Qed.
