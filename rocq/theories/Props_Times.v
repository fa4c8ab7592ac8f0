(** * C177-C179: the column time of a new catalogue *)
From Coq Require Import ZArith List Bool String Ascii Lia.
From Verif Require Import Base Utils_model Spec_Utils Spec_Openquake Spec_Times Times_model Utils_proofs Props_Utils.
Import ListNotations.
Open Scope Z_scope.

(** the column as it is given to the constructor *)
Definition cell_of (utc : bool) (e : entry) : cell :=
  match e with Missing => CMissing | Given ns => CDate ns | Text sep t => CText (time_text sep t utc) end.

Lemma digits_numeral w : forall v acc rest, fits w v ->
  digits w acc (numeral w v ++ rest) = Some (acc * 10 ^ Z.of_nat w + v, rest).
Proof.
  assert (G : forall s acc rest v n, number_from acc s = Some v -> String.length s = n -> digits n acc (s ++ rest) = Some (v, rest)).
  { induction s as [|c s IH]; intros acc rest v n; cbn [number_from String.length append]; [intros [= ->] <-; reflexivity|].
    destruct (digit c) as [d|] eqn:E; [|discriminate]. intros H <-. cbn [digits]. rewrite E. apply IH; [exact H | reflexivity]. }
  intros v acc rest Hf. apply G; [apply number_numeral; exact Hf | apply numeral_length].
Qed.
Lemma digits2 v rest : 0 <= v < 100 -> digits 2 0 (numeral 2 v ++ rest) = Some (v, rest).
Proof. intros H. rewrite digits_numeral by exact H. do 2 f_equal. Qed.
Lemma digits4 v rest : 0 <= v < 10000 -> digits 4 0 (numeral 4 v ++ rest) = Some (v, rest).
Proof. intros H. rewrite digits_numeral by exact H. do 2 f_equal. Qed.
Lemma fraction_numeral w : forall v k acc rest, fits w v -> (w <= k)%nat -> match rest with EmptyString => True | String c _ => digit c = None end ->
  fraction (10 ^ (Z.of_nat k - 1)) acc (numeral w v ++ rest) = (acc + v * 10 ^ (Z.of_nat k - Z.of_nat w), rest).
Proof.
  induction w as [|w IH]; intros v k acc rest Hf Hk Hr.
  - unfold fits in Hf. change (10 ^ Z.of_nat 0) with 1 in Hf. assert (v = 0) by lia. subst v. cbn [numeral append].
    rewrite Z.mul_0_l, Z.add_0_r. destruct rest as [|c t]; cbn [fraction]; [reflexivity|]. rewrite Hr. reflexivity.
  - cbn [numeral]. rewrite app_assoc_s. cbn [append].
    assert (Hf' : fits w (v / 10)).
    { unfold fits in *. rewrite Nat2Z.inj_succ, Z.pow_succ_r in Hf by lia. Z.to_euclidean_division_equations; lia. }
    assert (G : forall r, fraction (10 ^ (Z.of_nat k - 1)) acc (numeral w (v / 10) ++ r) = fraction (10 ^ (Z.of_nat k - Z.of_nat w - 1)) (acc + v / 10 * 10 ^ (Z.of_nat k - Z.of_nat w)) r).
    { clear IH Hr Hf. revert k acc Hk Hf'. generalize (v / 10) as u. clear v. induction w as [|w IH]; intros u k acc Hk Hf r.
      - unfold fits in Hf. change (10 ^ Z.of_nat 0) with 1 in Hf. assert (u = 0) by lia. subst u. cbn [numeral append]. f_equal; [f_equal; lia | lia].
      - cbn [numeral]. rewrite app_assoc_s. cbn [append].
        assert (Hf' : fits w (u / 10)).
        { unfold fits in *. rewrite Nat2Z.inj_succ, Z.pow_succ_r in Hf by lia. Z.to_euclidean_division_equations; lia. }
        rewrite IH by (try assumption; lia). cbn [fraction]. rewrite digit_char_digit by apply mod10.
        assert (P : 10 ^ (Z.of_nat k - Z.of_nat w) = 10 * 10 ^ (Z.of_nat k - Z.of_nat w - 1)) by (rewrite <- Z.pow_succ_r by lia; f_equal; lia).
        assert (P2 : 10 ^ (Z.of_nat k - Z.of_nat w - 1) = 10 * 10 ^ (Z.of_nat k - Z.of_nat w - 1 - 1)) by (rewrite <- Z.pow_succ_r by lia; f_equal; lia).
        f_equal.
        + rewrite P2 at 1. rewrite Z.mul_comm, Z.div_mul by lia. f_equal. lia.
        + rewrite P. replace (Z.of_nat k - Z.of_nat (S w)) with (Z.of_nat k - Z.of_nat w - 1) by lia.
          rewrite (Z.div_mod u 10) at 3 by lia. ring. }
    rewrite G. cbn [fraction]. rewrite digit_char_digit by apply mod10.
    assert (P : 10 ^ (Z.of_nat k - Z.of_nat w) = 10 * 10 ^ (Z.of_nat k - Z.of_nat w - 1)) by (rewrite <- Z.pow_succ_r by lia; f_equal; lia).
    assert (E : acc + v / 10 * 10 ^ (Z.of_nat k - Z.of_nat w) + v mod 10 * 10 ^ (Z.of_nat k - Z.of_nat w - 1) = acc + v * 10 ^ (Z.of_nat k - Z.of_nat (S w))).
    { rewrite P. replace (Z.of_nat k - Z.of_nat (S w)) with (Z.of_nat k - Z.of_nat w - 1) by lia. rewrite (Z.div_mod v 10) at 3 by lia. ring. }
    rewrite E. destruct rest as [|c t]; cbn [fraction]; [reflexivity|]. rewrite Hr. reflexivity.
Qed.

Lemma valid_bounds t : st_valid t -> 1 <= st_y t <= 9999 /\ 1 <= st_mo t <= 12 /\ 1 <= st_d t <= 31 /\ 0 <= st_h t <= 23 /\ 0 <= st_mi t <= 59 /\ 0 <= st_s t <= 59.
Proof.
  intros ((Hy & n & Hn & Hd) & (Hh & Hmi & Hs) & _). destruct (days_in_month_spec _ _ _ Hn) as [E Hmo].
  assert (n <= 31). { rewrite <- E. unfold days_in_month. repeat destruct (_ =? _); cbn; try lia; destruct (leap _); lia. }
  lia.
Qed.
(** the parser of pandas reads the instant that the text states *)
Lemma iso_reads sep t utc : sep = "T"%char \/ sep = " "%char -> st_valid t -> iso8601 (time_text sep t utc) = Some (instant t, utc).
Proof.
  intros Hsep Hv. pose proof (valid_bounds t Hv) as (B1 & B2 & B3 & B4 & B5 & B6). destruct Hv as (Hd & Ht & Hw & Hf).
  assert (Es : ceqb sep "T" || ceqb sep " " = true) by (destruct Hsep as [-> | ->]; reflexivity).
  unfold iso8601, time_text.
  rewrite digits4 by lia. cbn [obind append expect]. replace (ceqb "-" "-") with true by reflexivity. cbn [obind].
  rewrite digits2 by lia. cbn [obind append expect]. replace (ceqb "-" "-") with true by reflexivity. cbn [obind].
  rewrite digits2 by lia. cbn [obind append expect]. rewrite Es. cbn [obind].
  rewrite digits2 by lia. cbn [obind append expect]. replace (ceqb ":" ":") with true by reflexivity. cbn [obind].
  rewrite digits2 by lia. cbn [obind append expect]. replace (ceqb ":" ":") with true by reflexivity. cbn [obind].
  rewrite digits2 by lia. cbn [obind].
  unfold instant. destruct (st_w t) as [|w] eqn:Ew.
  - unfold fits in Hf. change (10 ^ Z.of_nat 0) with 1 in Hf. assert (E0 : st_frac t = 0) by lia. rewrite E0. cbn [append].
    assert (E : expect (ceqb ".") (if utc then "Z" else "")%string = None) by (destruct utc; reflexivity). rewrite E. cbn [obind].
    assert (E2 : match (if utc then "Z" else "")%string with "" => Some false | String c "" => if ceqb c "Z" then Some true else None | _ => None end = Some utc) by (destruct utc; reflexivity).
    rewrite E2. cbn [obind]. rewrite make_datetime_ok by (try assumption; lia). cbn [dt_year dt_month dt_day dt_hour dt_minute dt_second].
    unfold whole_second. rewrite Z.mul_0_l. reflexivity.
  - cbn [append expect]. replace (ceqb "." ".") with true by reflexivity.
    destruct (numeral_head (S w) (st_frac t) ltac:(lia)) as (c & s' & dg & En & Hc).
    pose proof (fraction_numeral (S w) (st_frac t) 9 0 (if utc then "Z" else "")%string Hf ltac:(lia)) as Ff.
    change (10 ^ (Z.of_nat 9 - 1)) with 100000000 in Ff. change (Z.of_nat 9) with 9 in Ff.
    rewrite En in Ff |- *. cbn [append]. rewrite Hc. cbn [append] in Ff. rewrite Ff by (destruct utc; reflexivity). cbn [obind].
    assert (E2 : match (if utc then "Z" else "")%string with "" => Some false | String c "" => if ceqb c "Z" then Some true else None | _ => None end = Some utc) by (destruct utc; reflexivity).
    rewrite E2. cbn [obind]. rewrite make_datetime_ok by (try assumption; lia). cbn [dt_year dt_month dt_day dt_hour dt_minute dt_second].
    rewrite Z.add_0_l. reflexivity.
Qed.
Lemma stamp_in ns : in_range ns -> stamp ns = Some ns.
Proof. unfold in_range, stamp. intros H. cbv zeta. destruct (Z.ltb_spec (- 2 ^ 63) (ns - 719162 * 86400000000000)), (Z.ltb_spec (ns - 719162 * 86400000000000) (2 ^ 63)); cbn [andb]; try reflexivity; lia. Qed.
Lemma stamp_out ns : ~ in_range ns -> stamp ns = None.
Proof. unfold in_range, stamp. intros H. cbv zeta. destruct (Z.ltb_spec (- 2 ^ 63) (ns - 719162 * 86400000000000)), (Z.ltb_spec (ns - 719162 * 86400000000000) (2 ^ 63)); cbn [andb]; try reflexivity; lia. Qed.
Lemma in_range_dec ns : in_range ns \/ ~ in_range ns.
Proof. unfold in_range. lia. Qed.
(** the flag of an entry *)
Definition flag (utc : bool) (e : entry) : option bool := match e with Missing => None | Given _ => Some false | Text _ _ => Some utc end.
Lemma convert_in utc e : entry_ok e -> entry_in_range e -> convert_cell (cell_of utc e) = Some (meant e, flag utc e).
Proof.
  intros Ho Hi. destruct e as [|ns|sep t]; cbn [cell_of convert_cell meant flag]; [reflexivity | |].
  - rewrite stamp_in by (apply Hi; reflexivity). reflexivity.
  - destruct Ho as [Hs Hv]. rewrite iso_reads by assumption. cbn [obind]. rewrite stamp_in by (apply Hi; reflexivity). reflexivity.
Qed.
Lemma convert_out utc e : entry_ok e -> ~ entry_in_range e -> convert_cell (cell_of utc e) = None.
Proof.
  intros Ho Hi. destruct e as [|ns|sep t]; cbn [cell_of convert_cell].
  - elim Hi. intros ns [=].
  - rewrite stamp_out; [reflexivity|]. intros H. apply Hi. intros ? [= <-]. exact H.
  - destruct Ho as [Hs Hv]. rewrite iso_reads by assumption. cbn [obind]. rewrite stamp_out; [reflexivity|]. intros H. apply Hi. intros ? [= <-]. exact H.
Qed.
Lemma convert_all_in utc l : Forall entry_ok l -> Forall entry_in_range l -> convert_all (map (cell_of utc) l) = Some (map (fun e => (meant e, flag utc e)) l).
Proof.
  intros H1 H2. induction l as [|e l IH]; [reflexivity|]. inversion H1; subst; inversion H2; subst. cbn [map convert_all].
  rewrite convert_in, IH by assumption. reflexivity.
Qed.
Lemma convert_all_out utc l e : Forall entry_ok l -> In e l -> ~ entry_in_range e -> convert_all (map (cell_of utc) l) = None.
Proof.
  intros H1 He Hn. induction l as [|e' l IH]; [destruct He|]. inversion H1; subst. cbn [map convert_all]. destruct He as [-> |He].
  - rewrite convert_out by assumption. reflexivity.
  - destruct (convert_cell _); [cbn [obind]; rewrite IH by assumption; reflexivity | reflexivity].
Qed.
(** the fallback reads the whole second of a text with T ... *)
Lemma fallback_T utc e : entry_ok e -> with_T e -> fallback_cell (cell_of utc e) = Ok (to_the_second e).
Proof.
  intros Ho Hs. destruct e as [|ns|sep t]; [reflexivity | reflexivity |]. cbn [cell_of fallback_cell to_the_second]. destruct Ho as [_ Hv].
  cbn in Hs. subst sep. pose proof (valid_bounds t Hv) as (B1 & B2 & B3 & B4 & B5 & B6). destruct Hv as (Hd & Ht & Hw & Hf).
  set (suffix := ((match st_w t with O => "" | w => "." ++ numeral w (st_frac t) end) ++ (if utc then "Z" else ""))%string).
  assert (E : time_text "T" t utc = (date_text 4 2 2 2 2 2 (st_y t) (st_mo t) (st_d t) (st_h t) (st_mi t) (st_s t) ++ suffix)%string).
  { unfold time_text, date_text, suffix. rewrite ?app_assoc_s; cbn [append]; rewrite ?app_assoc_s; cbn [append]; rewrite ?app_assoc_s; cbn [append]; rewrite ?app_assoc_s; reflexivity. }
  rewrite E, C72_dates_are_parsed; try assumption.
  - cbn [rbind option_map dt_year dt_month dt_day dt_hour dt_minute dt_second dt_micro]. reflexivity.
  - unfold widths_ok. lia.
  - unfold all_fit, fits. change (10 ^ Z.of_nat 2) with 100. change (10 ^ Z.of_nat 4) with 10000. lia.
  - unfold suffix. destruct (st_w t).
    + destruct utc; [right; right; exists ""%string; reflexivity | left; reflexivity].
    + right; left. cbn [append]. eexists. reflexivity.
Qed.
(** ... and rejects one with a blank *)
Lemma strptime_no_T s : has_char "T" s = false -> has_char "t" s = false -> strptime s = Err ValueError.
Proof.
  intros H1 H2. unfold strptime. assert (E : split_T s = None); [|rewrite E; reflexivity].
  induction s as [|c s IH]; [reflexivity|]. cbn [has_char] in H1, H2. apply orb_false_iff in H1 as [A1 B1]. apply orb_false_iff in H2 as [A2 B2].
  cbn [split_T]. unfold ceqb in *. rewrite A1, A2. cbn [orb]. rewrite IH by assumption. reflexivity.
Qed.
Lemma head_no_char c x s : has_char c s = false -> has_char c (head (split x s)) = false.
Proof.
  induction s as [|y s IH]; [reflexivity|]. cbn [has_char split]. intros H. apply orb_false_iff in H as [A B].
  destruct (ceqb y x); [reflexivity|]. specialize (IH B). destruct (split x s) as [|h r]; cbn [head] in *.
  - cbn [has_char]. rewrite A. reflexivity.
  - cbn [has_char]. rewrite A. exact IH.
Qed.
Lemma fallback_blank utc t : st_valid t -> fallback_cell (cell_of utc (Text " " t)) = Err ValueError.
Proof.
  intros Hv. cbn [cell_of fallback_cell robust_parse_datetime].
  assert (N : forall c, c = "T"%char \/ c = "t"%char -> has_char c (time_text " " t utc) = false).
  { intros c Hc. unfold time_text. assert (Dc : digit c = None) by (destruct Hc as [-> | ->]; reflexivity).
    repeat (rewrite has_char_app || cbn [has_char append]). rewrite ?numeral_no_char by exact Dc.
    destruct (st_w t); cbn [has_char append]; rewrite ?numeral_no_char by exact Dc; destruct Hc as [-> | ->]; destruct utc; reflexivity. }
  set (s := head (split "." (head (split "Z" (time_text " " t utc))))).
  assert (NT : has_char "T" s = false) by (apply head_no_char, head_no_char, N; tauto).
  assert (Nt : has_char "t" s = false) by (apply head_no_char, head_no_char, N; tauto).
  assert (E : pad_year s = Ok s) by (unfold pad_year; rewrite NT; reflexivity). rewrite E. cbn [rbind].
  rewrite strptime_no_T by assumption. reflexivity.
Qed.
Lemma fallback_all_T utc l : Forall entry_ok l -> Forall with_T l -> fallback_all (map (cell_of utc) l) = Ok (map to_the_second l).
Proof.
  intros H1 H2. induction l as [|e l IH]; [reflexivity|]. inversion H1; subst; inversion H2; subst. cbn [map fallback_all].
  rewrite fallback_T, IH by assumption. reflexivity.
Qed.

(** a time object without zone beside texts marked as UTC is not modelled *)
Definition no_mix (utc : bool) (l : list entry) : Prop := utc = true -> forall ns, ~ In (Given ns) l.
Lemma no_mix_flags utc l : no_mix utc l ->
  existsb (fun x : option Z * option bool => match snd x with Some true => true | _ => false end) (map (fun e => (meant e, flag utc e)) l)
  && existsb (fun x : option Z * option bool => match snd x with Some false => true | _ => false end) (map (fun e => (meant e, flag utc e)) l) = false.
Proof.
  intros H. destruct utc.
  - rewrite andb_false_iff. right. induction l as [|e l IH]; [reflexivity|]. cbn [map existsb]. rewrite IH.
    + destruct e as [|ns|]; cbn; [reflexivity | | reflexivity]. elim (H eq_refl ns). left. reflexivity.
    + intros _ ns Hn. apply (H eq_refl ns). right. exact Hn.
  - rewrite andb_false_iff. left. clear H. induction l as [|e l IH]; [reflexivity|]. cbn [map existsb]. rewrite IH. destruct e; reflexivity.
Qed.

(** C177: if all times are in the range of pandas timestamps, each one is read exactly, up to
    nanoseconds, with T or a blank *)
Theorem C177_times_in_range : forall utc l, no_mix utc l -> Forall entry_ok l -> Forall entry_in_range l ->
  time_column (map (cell_of utc) l) = Ok (map meant l).
Proof.
  intros utc l Hm H1 H2. unfold time_column. rewrite convert_all_in by assumption. rewrite no_mix_flags by exact Hm.
  rewrite map_map. reflexivity.
Qed.
(** C177: with T, every column is read: exactly, or every text to the second *)
Theorem C177_times_with_T : forall utc l, no_mix utc l -> Forall entry_ok l -> Forall with_T l ->
  (Forall entry_in_range l /\ time_column (map (cell_of utc) l) = Ok (map meant l)) \/
  (Exists (fun e => ~ entry_in_range e) l /\ time_column (map (cell_of utc) l) = Ok (map to_the_second l)).
Proof.
  intros utc l Hm H1 H2.
  assert (D : Forall entry_in_range l \/ Exists (fun e => ~ entry_in_range e) l).
  { clear. induction l as [|e l IH]; [left; constructor|].
    assert (De : entry_in_range e \/ ~ entry_in_range e).
    { unfold entry_in_range. destruct (meant e) as [ns|]; [|left; intros ? [=]]. destruct (in_range_dec ns) as [H|H]; [left; intros ? [= <-]; exact H | right; intros A; apply H, A; reflexivity]. }
    destruct De as [De|De]; [|right; left; exact De]. destruct IH; [left; constructor; assumption | right; right; assumption]. }
  destruct D as [D|D]; [left; split; [exact D | apply C177_times_in_range; assumption]|]. right. split; [exact D|].
  apply Exists_exists in D as (e & He & Hn). unfold time_column. rewrite (convert_all_out utc l e) by assumption. apply fallback_all_T; assumption.
Qed.
(** C177: whatever the texts are, missing entries stay missing, time objects are kept, and no row is lost *)
Theorem C177_other_entries : forall l r, time_column l = Ok r ->
  Forall2 (fun c v => (c = CMissing <-> v = None) /\ (forall ns, c = CDate ns -> v = Some ns)) l r.
Proof.
  intros l r. unfold time_column.
  assert (A : forall r', convert_all l = Some r' -> Forall2 (fun c v => (c = CMissing <-> v = None) /\ (forall ns, c = CDate ns -> v = Some ns)) l (map fst r')).
  { induction l as [|c l IH]; cbn [convert_all]; [intros r' [= <-]; constructor|].
    intros r'. destruct (convert_cell c) as [x|] eqn:Ec; [|discriminate]. cbn [obind]. destruct (convert_all l) as [rl|]; [|discriminate]. cbn [obind].
    intros [= <-]. cbn [map]. constructor; [|apply IH; reflexivity].
    destruct c as [|ns|s]; cbn [convert_cell] in Ec.
    - injection Ec as <-. cbn. split; [tauto | discriminate].
    - unfold stamp in Ec. destruct (_ && _); [|discriminate]. cbn [obind] in Ec. injection Ec as <-. cbn. split; [split; discriminate|]. intros ? [= ->]. reflexivity.
    - destruct (iso8601 s) as [[ns utc]|]; [|discriminate]. cbn [obind] in Ec. unfold stamp in Ec. destruct (_ && _); [|discriminate]. cbn [obind] in Ec. injection Ec as <-.
      cbn. split; [split; discriminate | discriminate]. }
  destruct (convert_all l) as [r'|] eqn:E.
  - destruct (_ && _); [discriminate|]. intros [= <-]. apply A. reflexivity.
  - clear A E. revert r. induction l as [|c l IH]; cbn [fallback_all]; [intros r [= <-]; constructor|].
    intros r. destruct (fallback_cell c) as [x|] eqn:Ec; [|discriminate]. cbn [rbind]. destruct (fallback_all l) as [rl|]; [|discriminate]. cbn [rbind].
    intros [= <-]. constructor; [|apply IH; reflexivity].
    destruct c as [|ns|s]; cbn [fallback_cell] in Ec.
    + injection Ec as <-. split; [tauto | discriminate].
    + injection Ec as <-. split; [split; discriminate|]. intros ? [= ->]. reflexivity.
    + destruct (robust_parse_datetime (DString s)) as [d|] eqn:Ed; [|discriminate]. cbn [rbind] in Ec. injection Ec as <-.
      assert (d <> None). { intros ->. cbn [robust_parse_datetime] in Ed. destruct (pad_year _); [|discriminate]. cbn [rbind] in Ed. destruct (strptime _); discriminate Ed. }
      destruct d; [|contradiction]. cbn. split; [split; discriminate | discriminate].
Qed.

(** C178 (refuted): the time of an event depends on the other events.  Whatever in-range time is
    given with a fraction of a second, beside any time out of range the fraction is lost. *)
Theorem C178_independent_of_the_others_refuted : forall utc t other, st_valid t -> st_valid other -> in_range (instant t) -> ~ in_range (instant other) -> st_frac t <> 0 ->
  time_column (map (cell_of utc) [Text "T" t]) = Ok [Some (instant t)] /\
  time_column (map (cell_of utc) [Text "T" t; Text "T" other]) = Ok [Some (whole_second t); Some (whole_second other)] /\
  whole_second t <> instant t.
Proof.
  intros utc t other Ht Ho Hi Hn Hf.
  assert (M : forall l, (forall ns, ~ In (Given ns) l) -> no_mix utc l) by (intros l H _; exact H).
  assert (O1 : entry_ok (Text "T" t)) by (split; [left; reflexivity | exact Ht]).
  assert (O2 : entry_ok (Text "T" other)) by (split; [left; reflexivity | exact Ho]).
  split; [|split].
  - apply (C177_times_in_range utc [Text "T" t]); [apply M; intros ns [[=]|[]] | constructor; [exact O1 | constructor] |].
    constructor; [|constructor]. intros ? [= <-]. exact Hi.
  - destruct (C177_times_with_T utc [Text "T" t; Text "T" other]) as [[A _]|[_ A]]; [apply M; intros ns [[=]|[[=]|[]]] | constructor; [exact O1 | constructor; [exact O2 | constructor]] | constructor; [reflexivity | constructor; [reflexivity | constructor]] | | exact A].
    inversion A; subst. inversion H2; subst. elim Hn. apply H3. reflexivity.
  - unfold instant. destruct Ht as (_ & _ & Hw & Hft). unfold fits in Hft. assert (0 < 10 ^ (9 - Z.of_nat (st_w t))) by (apply Z.pow_pos_nonneg; lia). nia.
Qed.
(** C179 (refuted): times written with a blank, as in the examples of the documentation, cannot be
    read if any time of the column is out of range. *)
Theorem C179_blank_refuted : forall utc l t, Forall entry_ok l -> In (Text " " t) l -> Exists (fun e => ~ entry_in_range e) l ->
  time_column (map (cell_of utc) l) = Err ValueError.
Proof.
  intros utc l t H1 Ht D. apply Exists_exists in D as (e & He & Hn). unfold time_column. rewrite (convert_all_out utc l e) by assumption.
  clear e He Hn. induction l as [|e l IH]; [destruct Ht|]. inversion H1; subst. cbn [map fallback_all].
  destruct Ht as [-> |Ht].
  - rewrite fallback_blank; [reflexivity|]. apply H2.
  - specialize (IH H3 Ht). destruct e as [|ns|sep u]; [cbn [cell_of fallback_cell rbind]; rewrite IH; reflexivity | cbn [cell_of fallback_cell rbind]; rewrite IH; reflexivity |].
    destruct H2 as [[-> | ->] Hu].
    + rewrite (fallback_T utc (Text "T" u)); [|split; [left; reflexivity | exact Hu] | reflexivity]. cbn [rbind]. rewrite IH. reflexivity.
    + rewrite fallback_blank by exact Hu. reflexivity.
Qed.

Definition quake := mkst 2021 12 25 14 49 40 6 125942.
Definition basel := mkst 1356 10 18 21 0 0 0 0.
Example C177_example : st_valid quake /\ st_valid basel /\ in_range (instant quake) /\ ~ in_range (instant basel) /\
  time_text "T" quake true = "2021-12-25T14:49:40.125942Z"%string /\
  time_column [CText "2021-12-25T14:49:40.125942Z"; CMissing; CText "2021-12-25 14:49:40.12Z"] = Ok [Some (instant quake); None; Some (whole_second quake + 120000000)] /\
  time_column [CText "2021-12-25T14:49:40.125942"; CText "1356-10-18T21:00:00"] = Ok [Some (whole_second quake); Some (whole_second basel)] /\
  time_column [CText "1356-10-18 21:00:00"] = Err ValueError.
Proof.
  assert (V : forall y mo d n, 1 <= y <= 9999 -> month_length y mo n -> 1 <= d <= n -> valid_date y mo d) by (intros; split; [assumption | exists n; split; assumption]).
  split; [|split].
  - split; [apply (V _ _ _ 31); [cbn; lia | right; right; cbn; tauto | cbn; lia] | split; [unfold valid_time; cbn; lia | split; [cbn; lia | unfold fits; cbn; lia]]].
  - split; [apply (V _ _ _ 31); [cbn; lia | right; right; cbn; tauto | cbn; lia] | split; [unfold valid_time; cbn; lia | split; [cbn; lia | unfold fits; cbn; lia]]].
  - split; [|split; [|vm_compute; tauto]].
    + unfold in_range. change (instant quake) with 63776040580125942000. lia.
    + unfold in_range. intros [A _]. vm_compute in A. discriminate.
Qed.
Print Assumptions C177_times_in_range.
Print Assumptions C177_times_with_T.
Print Assumptions C177_other_entries.
Print Assumptions C178_independent_of_the_others_refuted.
Print Assumptions C179_blank_refuted.
