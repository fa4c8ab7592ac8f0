(** * C37 for every input: which completeness magnitude each event is given *)
From Coq Require Import ZArith List Bool Lia Reals Lra Permutation Sorted.
From Verif Require Import Base Num XR RList SortLib Binning_model BinTest_proofs BValue_model BValue_run BValue_proofs BValue_real AValue_model AValue_proofs BSig_model
  Spec_BSig Spec_Positive Positive_proofs Props_BValue Props_BValue2 Props_AValue Props_Positive Props_BSig Moran_proofs Props_BSig2 Props_BSig3.
Import ListNotations.
Open Scope R_scope.

Lemma gather_sorted srt (ev sorted : list event2) : argsort_ok srt -> Permutation sorted ev -> StronglySorted (fun a b => snd a < snd b) sorted ->
  gather ev (srt (map (fun e => Fin (snd e)) ev)) = Ok sorted.
Proof.
  intros Hs P S. destruct (sort_gather srt ev Hs) as (ev' & G & Pe & Se). rewrite G. f_equal.
  apply (sorted_perm_unique by_x).
  - intros a b Ha Hb R1 R2. unfold by_x in *. apply (Permutation_in _ Pe), (Permutation_in _ (Permutation_sym P)) in Ha.
    apply (Permutation_in _ Pe), (Permutation_in _ (Permutation_sym P)) in Hb.
    clear - S Ha Hb R1 R2. induction S as [|z l S IH F]; [destruct Ha|]. rewrite Forall_forall in F.
    destruct Ha as [->|Ha], Hb as [->|Hb]; auto.
    + apply F in Hb. lra.
    + apply F in Ha. lra.
  - exact Se.
  - clear - S. induction S as [|z l S IH F]; constructor; [exact IH|]. rewrite Forall_forall in *. intros x Hx. apply F in Hx. unfold by_x. lra.
  - eapply Permutation_trans; [exact Pe|]. apply Permutation_sym. exact P.
Qed.
(** With x_variable, the i-th event along x is given the completeness magnitude of the i-th
    event of the input. *)
Theorem C37_every_input_refuted : forall srt cdf m wn kw draws (ev sorted : list event2) delta n min_num cons, argsort_ok srt ->
  Permutation sorted ev -> StronglySorted (fun a b => snd a < snd b) sorted ->
  b_significant_1D srt cdf m wn kw draws (map (fun e => ev_m (fst e)) ev) (Array (map (fun e => ev_c (fst e)) ev)) delta (map (fun e => ev_t (fst e)) ev) n min_num
    (Some (map (fun e => Fin (snd e)) ev)) cons
  = b_significant_1D srt cdf m wn kw draws (map (fun e => ev_m (fst e)) sorted) (Array (map (fun e => ev_c (fst e)) ev)) delta (map (fun e => ev_t (fst e)) sorted) n min_num None cons.
Proof.
  intros srt cdf m wn kw draws ev sorted delta n min_num cons Hs P S. unfold b_significant_1D.
  assert (Hl : length sorted = length ev) by (apply Permutation_length; exact P).
  match goal with |- (let? _ := ?A in _) = (let? _ := ?B in _) => assert (E : A = B); [|rewrite E; reflexivity] end.
  unfold prepare_1D. rewrite !map_length, !Nat.eqb_refl. cbn [negb]. destruct (n <? min_num)%nat; [reflexivity|].
  rewrite !gather_map, (gather_sorted srt ev sorted Hs P S). cbn [rmap rbind]. rewrite !map_length, Hl. reflexivity.
Qed.
Print Assumptions C37_every_input_refuted.
(** what holds: events given in the order of x_variable keep their completeness magnitudes *)
Theorem C37_input_in_order : forall srt cdf m wn kw draws (ev : list event2) delta n min_num cons, argsort_ok srt ->
  StronglySorted (fun a b => snd a < snd b) ev ->
  b_significant_1D srt cdf m wn kw draws (map (fun e => ev_m (fst e)) ev) (Array (map (fun e => ev_c (fst e)) ev)) delta (map (fun e => ev_t (fst e)) ev) n min_num
    (Some (map (fun e => Fin (snd e)) ev)) cons
  = b_significant_1D srt cdf m wn kw draws (map (fun e => ev_m (fst e)) ev) (Array (map (fun e => ev_c (fst e)) ev)) delta (map (fun e => ev_t (fst e)) ev) n min_num None cons.
Proof. intros. apply C37_every_input_refuted; [assumption|apply Permutation_refl|assumption]. Qed.
Print Assumptions C37_input_in_order.
Example C37_case : StronglySorted (fun a b : event2 => snd a < snd b) four /\ Permutation four (rev four) /\
  map (fun e => ev_c (fst e)) (rev four) <> map (fun e => ev_c (fst e)) four.
Proof.
  split; [exact four_sorted|]. split; [apply Permutation_rev|]. intros E. cbn in E. injection E as E _. lra.
Qed.
