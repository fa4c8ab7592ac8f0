(** * C219: which texts the fallback date parser accepts (utils/__init__.py:111-151) *)
From Coq Require Import ZArith List Bool String Ascii Lia.
From Verif Require Import Base Num Dict StateM Utils_model Spec_Utils Utils_proofs Props_Utils.
Import ListNotations.
Open Scope string_scope.

(** ** numerals from digits *)
Lemma digit_inv c d : digit c = Some d -> (0 <= d < 10)%Z /\ c = digit_char d.
Proof. destruct c as [[] [] [] [] [] [] [] []]; intros H; try discriminate H; injection H as <-; split; try reflexivity; lia. Qed.
Lemma numeral_cons w : forall d u, (0 <= d < 10)%Z -> fits w u -> numeral (S w) (d * 10 ^ Z.of_nat w + u) = String (digit_char d) (numeral w u).
Proof.
  induction w as [|w IH]; intros d u Hd Hu; unfold fits in Hu.
  - cbn in Hu. replace u with 0%Z by lia. cbn [numeral]. replace (d * 10 ^ Z.of_nat 0 + 0)%Z with d by (cbn; lia). rewrite Z.mod_small by lia. reflexivity.
  - rewrite Nat2Z.inj_succ, Z.pow_succ_r in * by lia. set (m := (10 ^ Z.of_nat w)%Z) in *. assert (0 < m)%Z by (apply Z.pow_pos_nonneg; lia).
    change (numeral (S (S w)) (d * (10 * m) + u)) with (numeral (S w) ((d * (10 * m) + u) / 10) ++ String (digit_char ((d * (10 * m) + u) mod 10)) "").
    replace (d * (10 * m) + u)%Z with (u + d * m * 10)%Z by lia. rewrite Z.div_add, Z_mod_plus by lia.
    replace (u / 10 + d * m)%Z with (d * m + u / 10)%Z by lia. rewrite IH; [reflexivity|exact Hd|]. unfold fits. fold m. split; [apply Z.div_pos; lia|apply Z.div_lt_upper_bound; lia].
Qed.
Lemma number_inv s : forall acc v, number_from acc s = Some v -> exists u, v = (acc * 10 ^ Z.of_nat (String.length s) + u)%Z /\ fits (String.length s) u /\ s = numeral (String.length s) u.
Proof.
  induction s as [|c s IH]; intros acc v H.
  - injection H as <-. exists 0%Z. cbn. unfold fits. cbn. repeat split; lia.
  - cbn [number_from] in H. destruct (digit c) as [d|] eqn:D; [|discriminate]. apply digit_inv in D. destruct D as [Hd ->]. destruct (IH _ _ H) as (u & -> & Hu & Es).
    set (n := String.length s) in *. cbn [String.length]. fold n. exists (d * 10 ^ Z.of_nat n + u)%Z. split; [|split].
    + rewrite Nat2Z.inj_succ, Z.pow_succ_r by lia. lia.
    + unfold fits in *. rewrite Nat2Z.inj_succ, Z.pow_succ_r by lia. assert (0 < 10 ^ Z.of_nat n)%Z by (apply Z.pow_pos_nonneg; lia). nia.
    + rewrite numeral_cons by assumption. rewrite Es at 1. reflexivity.
Qed.
Lemma field_inv lo hi vlo vhi s v : field lo hi vlo vhi s = Some v -> exists w, (lo <= w <= hi)%nat /\ fits w v /\ s = numeral w v /\ (vlo <= v <= vhi)%Z.
Proof.
  unfold field. destruct (Nat.leb_spec lo (String.length s)); [|discriminate]. destruct (Nat.leb_spec (String.length s) hi); [|discriminate]. cbn [andb].
  destruct (number_from 0 s) as [v'|] eqn:N; [|discriminate]. destruct (Z.leb_spec vlo v'); [|discriminate]. destruct (Z.leb_spec v' vhi); [|discriminate]. cbn [andb]. intros E. injection E as <-.
  destruct (number_inv _ _ _ N) as (u & E & Hu & Es). rewrite Z.mul_0_l, Z.add_0_l in E. subst u. exists (String.length s). auto.
Qed.

(** ** splitting *)
Lemma split_join c s : join (String c "") (split c s) = s.
Proof.
  induction s as [|x s IH]; [reflexivity|]. cbn [split]. unfold ceqb. destruct (Ascii.eqb_spec x c) as [->|N].
  - pose proof (split_not_nil c s). destruct (split c s) as [|h r]; [contradiction|]. cbn [join append] in *. rewrite IH. reflexivity.
  - pose proof (split_not_nil c s). destruct (split c s) as [|h r]; [contradiction|]. destruct r as [|h2 r]; cbn [join append] in *; rewrite IH; reflexivity.
Qed.
Lemma split_free c s : Forall (fun p => has_char c p = false) (split c s).
Proof.
  induction s as [|x s IH]; [repeat constructor|]. cbn [split]. destruct (ceqb x c) eqn:E; [constructor; [reflexivity|exact IH]|].
  destruct (split c s) as [|h r]; constructor; try constructor.
  - cbn. rewrite E. reflexivity.
  - cbn [has_char]. rewrite E. exact (Forall_inv IH).
  - exact (Forall_inv_tail IH).
Qed.
Lemma split_of_join c l : l <> [] -> Forall (fun p => has_char c p = false) l -> split c (join (String c "") l) = l.
Proof.
  induction l as [|a l IH]; intros N H; [contradiction|]. destruct l as [|b l]; [cbn [join]; apply split_none, (Forall_inv H)|].
  change (join (String c "") (a :: b :: l)) with (a ++ String c (join (String c "") (b :: l))). rewrite split_app by exact (Forall_inv H). f_equal. apply IH; [discriminate|exact (Forall_inv_tail H)].
Qed.
Lemma cut_at c x : exists rest, x = head (split c x) ++ rest /\ (rest = "" \/ exists r, rest = String c r).
Proof.
  induction x as [|a x IH]; [exists ""; auto|]. cbn [split]. unfold ceqb. destruct (Ascii.eqb_spec a c) as [->|N].
  - exists (String c x). split; [reflexivity|]. right. exists x. reflexivity.
  - destruct IH as (rest & E & K). exists rest. split; [|exact K]. pose proof (split_not_nil c x). destruct (split c x) as [|h r]; [contradiction|]. cbn [head append] in *. rewrite E at 1. reflexivity.
Qed.
Lemma split_T_inv s a b : split_T s = Some (a, b) -> exists sep, (sep = "T"%char \/ sep = "t"%char) /\ s = a ++ String sep b.
Proof.
  revert a. induction s as [|x s IH]; intros a; [discriminate|]. cbn [split_T]. unfold ceqb. destruct (Ascii.eqb_spec x "T") as [->|N]; cbn [orb].
  - intros E. injection E as <- <-. exists "T"%char. auto.
  - destruct (Ascii.eqb_spec x "t") as [->|N']; cbn [orb].
    + intros E. injection E as <- <-. exists "t"%char. auto.
    + destruct (split_T s) as [[a' b']|]; [|discriminate]. intros E. injection E as <- <-. destruct (IH a' eq_refl) as (sep & K & ->). exists sep. auto.
Qed.

(** ** the texts *)
(** the day: one or two digits, or a blank and one digit *)
Inductive day_text (d : Z) : string -> Prop :=
| day_digits : forall w, (1 <= w <= 2)%nat -> fits w d -> day_text d (numeral w d)
| day_blank : fits 1 d -> day_text d (" " ++ numeral 1 d).
(** year-month-dayThour:minute:second with [sep] for the T *)
Definition accepted_text (wy wmo wh wmi ws : nat) (day : string) (sep : ascii) (y mo h mi s : Z) : string :=
  numeral wy y ++ "-" ++ numeral wmo mo ++ "-" ++ day ++ String sep (numeral wh h ++ ":" ++ numeral wmi mi ++ ":" ++ numeral ws s).
Definition digits_ok (wy wmo wh wmi ws : nat) (y mo h mi s : Z) : Prop :=
  ((1 <= wy <= 4)%nat /\ fits wy y) /\ ((1 <= wmo <= 2)%nat /\ fits wmo mo) /\ ((1 <= wh <= 2)%nat /\ fits wh h) /\ ((1 <= wmi <= 2)%nat /\ fits wmi mi) /\ ((1 <= ws <= 2)%nat /\ fits ws s).

Lemma day_inv s d : day_field s = Some d -> day_text d s.
Proof.
  intros H. assert (K : field 1 2 1 31 s = Some d \/ exists c, s = String " " (String c "") /\ field 1 1 1 9 (String c "") = Some d).
  { unfold day_field in H. destruct s as [|a s]; [left; exact H|]. destruct a as [[] [] [] [] [] [] [] []]; try (left; exact H).
    destruct s as [|c [|c' s]]; [left; exact H| |left; exact H]. right. exists c. auto. }
  destruct K as [K|(c & -> & K)].
  - apply field_inv in K. destruct K as (w & Hw & Hf & -> & _). constructor; assumption.
  - apply field_inv in K. destruct K as (w & Hw & Hf & E & _). assert (w = 1%nat) by lia. subst w. rewrite E. change (String " " (numeral 1 d)) with (" " ++ numeral 1 d). constructor 2. exact Hf.
Qed.
Lemma strptime_inv p t : strptime p = Ok t -> exists wmo wh wmi ws day sep,
  p = accepted_text 4 wmo wh wmi ws day sep (dt_year t) (dt_month t) (dt_hour t) (dt_minute t) (dt_second t) /\ day_text (dt_day t) day /\ (sep = "T"%char \/ sep = "t"%char) /\
  digits_ok 4 wmo wh wmi ws (dt_year t) (dt_month t) (dt_hour t) (dt_minute t) (dt_second t) /\
  valid_date (dt_year t) (dt_month t) (dt_day t).
Proof.
  unfold strptime. destruct (split_T p) as [[a b]|] eqn:ET; [|discriminate]. apply split_T_inv in ET. destruct ET as (sep & Hsep & ->).
  destruct (split "-" a) as [|y [|mo [|d [|? ?]]]] eqn:Ea; try discriminate. destruct (split ":" b) as [|h [|mi [|s [|? ?]]]] eqn:Eb; try discriminate.
  pose proof (split_join "-" a) as Ja. rewrite Ea in Ja. pose proof (split_join ":" b) as Jb. rewrite Eb in Jb. cbn [join] in Ja, Jb. subst a b.
  destruct (field 4 4 0 9999 y) as [y'|] eqn:F1; [|discriminate]. destruct (field 1 2 1 12 mo) as [mo'|] eqn:F2; [|discriminate]. destruct (day_field d) as [d'|] eqn:F3; [|discriminate].
  destruct (field 1 2 0 23 h) as [h'|] eqn:F4; [|discriminate]. destruct (field 1 2 0 59 mi) as [mi'|] eqn:F5; [|discriminate]. destruct (field 1 2 0 61 s) as [s'|] eqn:F6; [|discriminate].
  intros E. apply make_datetime_inv in E. destruct E as (-> & Hd & Ht). cbn [dt_year dt_month dt_day dt_hour dt_minute dt_second].
  apply field_inv in F1, F2, F4, F5, F6. apply day_inv in F3.
  destruct F1 as (wy & W1 & G1 & -> & _), F2 as (wmo & W2 & G2 & -> & _), F4 as (wh & W4 & G4 & -> & _), F5 as (wmi & W5 & G5 & -> & _), F6 as (ws & W6 & G6 & -> & _).
  assert (wy = 4%nat) by lia. subst wy. exists wmo, wh, wmi, ws, d, sep. split; [|split; [exact F3|split; [exact Hsep|split; [|exact Hd]]]].
  - unfold accepted_text. rewrite ?app_assoc_s. cbn [append]. rewrite ?app_assoc_s. cbn [append]. rewrite ?app_assoc_s. reflexivity.
  - unfold digits_ok. repeat split; try lia; assumption || (unfold fits in *; lia).
Qed.
Lemma day_no_char c d day : day_text d day -> digit c = None -> ceqb " " c = false -> has_char c day = false.
Proof. intros [w _ _|_] H1 H2; [apply numeral_no_char; exact H1|]. cbn [append has_char]. rewrite H2. apply numeral_no_char. exact H1. Qed.

(** Whatever text is accepted is a date of the Gregorian calendar and a time, written as
    year-month-dayThour:minute:second with at most four digits of the year and one or two of the
    other fields, where whatever follows a point or a Z is ignored, the day may be a blank and a
    digit, and T may be t if the year has four digits.  The result is what the text says. *)
Theorem C219_only_dates : forall x t, robust_parse_datetime (DString x) = Ok (Some t) ->
  exists wy wmo wh wmi ws day sep suffix,
  x = accepted_text wy wmo wh wmi ws day sep (dt_year t) (dt_month t) (dt_hour t) (dt_minute t) (dt_second t) ++ suffix /\
  digits_ok wy wmo wh wmi ws (dt_year t) (dt_month t) (dt_hour t) (dt_minute t) (dt_second t) /\
  day_text (dt_day t) day /\ (sep = "T"%char \/ sep = "t"%char /\ wy = 4%nat) /\
  (suffix = "" \/ (exists r, suffix = String "." r) \/ (exists r, suffix = String "Z" r)) /\
  valid_date (dt_year t) (dt_month t) (dt_day t) /\ valid_time (dt_hour t) (dt_minute t) (dt_second t) /\ dt_micro t = 0%Z.
Proof.
  intros x t H. pose proof (C115_parsed_dates_exist _ _ H) as (Vd & Vt & Vm). cbn [robust_parse_datetime] in H.
  assert (C : exists suffix, x = head (split "." (head (split "Z" x))) ++ suffix /\ (suffix = "" \/ (exists r, suffix = String "." r) \/ (exists r, suffix = String "Z" r))).
  { destruct (cut_at "Z" x) as (r1 & E1 & K1). destruct (cut_at "." (head (split "Z" x))) as (r2 & E2 & K2). exists (r2 ++ r1). split.
    - rewrite <- app_assoc_s, <- E2. exact E1.
    - destruct K2 as [-> |[r ->]]; [|right; left; exists (r ++ r1); reflexivity]. destruct K1 as [-> |[r ->]]; [left; reflexivity|right; right; exists r; reflexivity]. }
  destruct C as (suffix & E & K). set (x2 := head (split "." (head (split "Z" x)))) in *. clearbody x2. subst x. rename x2 into x.
  destruct (pad_year x) as [p|] eqn:P; [|discriminate]. cbn [rbind] in H. destruct (strptime p) as [t'|] eqn:S; [|discriminate]. cbn [rbind] in H. injection H as ->.
  destruct (strptime_inv _ _ S) as (wmo & wh & wmi & ws & day & sep & -> & Hday & Hsep & Hok & _).
  cut (exists wy, x = accepted_text wy wmo wh wmi ws day sep (dt_year t) (dt_month t) (dt_hour t) (dt_minute t) (dt_second t) /\ ((1 <= wy <= 4)%nat /\ fits wy (dt_year t)) /\ (sep = "T"%char \/ sep = "t"%char /\ wy = 4%nat)).
  { intros (wy & -> & Hwy & Hs). exists wy, wmo, wh, wmi, ws, day, sep, suffix. split; [reflexivity|]. split; [|auto 10]. destruct Hok as [_ Hok]. exact (conj Hwy Hok). }
  unfold pad_year in P. destruct (has_char "T" x) eqn:HT.
  2:{ injection P as ->. exists 4%nat. split; [reflexivity|]. split; [apply Hok|]. destruct Hsep as [-> | ->]; [|auto]. exfalso. unfold accepted_text in HT.
      repeat (rewrite has_char_app in HT || cbn [has_char append] in HT). rewrite !orb_false_iff in HT. cbn in HT. decompose [and] HT. discriminate. }
  pose proof (split_join "T" x) as JT. pose proof (split_free "T" x) as FT. destruct (split "T" x) as [|date [|time [|? ?]]]; try discriminate. cbn [join] in JT.
  pose proof (split_join "-" date) as JD. pose proof (split_free "-" date) as FD. destruct (split "-" date) as [|p0 rest]; [discriminate|].
  set (q := if (String.length p0 <? 4)%nat then zfill4 p0 else p0) in P.
  assert (Tdate : has_char "T" date = false) by exact (Forall_inv FT). assert (Ttime : has_char "T" time = false) by exact (Forall_inv (Forall_inv_tail FT)).
  assert (Tzeros : forall n, has_char "T" (zeros n) = false) by (intros n; apply zeros_no_char; reflexivity).
  assert (Nj : forall a l, has_char "T" (join "-" (a :: l)) = has_char "T" a || has_char "T" (join "-" l)).
  { intros a [|b l]; [cbn [join has_char]; rewrite orb_false_r; reflexivity|]. change (join "-" (a :: b :: l)) with (a ++ String "-" (join "-" (b :: l))). rewrite has_char_app. reflexivity. }
  assert (Qz : forall c, has_char c p0 = false -> digit c = None -> has_char c (zfill4 p0) = false).
  { intros c Hc Dc. unfold zfill4. destruct p0 as [|a r]; [apply zeros_no_char; exact Dc|]. destruct (ceqb a "+" || ceqb a "-"); [|rewrite has_char_app, zeros_no_char, Hc by exact Dc; reflexivity].
    cbn [has_char] in *. apply orb_false_iff in Hc. destruct Hc as [H1 H2]. rewrite H1. rewrite has_char_app, zeros_no_char, H2 by exact Dc. reflexivity. }
  assert (Qq : forall c, has_char c p0 = false -> digit c = None -> has_char c q = false).
  { intros c Hc Dc. unfold q. destruct (_ <? _)%nat; [apply Qz; assumption|exact Hc]. }
  rewrite <- JD, Nj in Tdate. apply orb_false_iff in Tdate. destruct Tdate as [Tp0 Trest].
  apply (f_equal (fun r => match r with Ok v => v | Err _ => "" end)) in P. cbv beta iota in P.
  assert (Pj : join "-" (q :: rest) ++ String "T" time = accepted_text 4 wmo wh wmi ws day sep (dt_year t) (dt_month t) (dt_hour t) (dt_minute t) (dt_second t)) by exact P.
  clear P. set (D := numeral 4 (dt_year t) ++ "-" ++ numeral wmo (dt_month t) ++ "-" ++ day) in *.
  set (Tm := numeral wh (dt_hour t) ++ ":" ++ numeral wmi (dt_minute t) ++ ":" ++ numeral ws (dt_second t)) in *.
  assert (EA : accepted_text 4 wmo wh wmi ws day sep (dt_year t) (dt_month t) (dt_hour t) (dt_minute t) (dt_second t) = D ++ String sep Tm).
  { unfold accepted_text, D. fold Tm. rewrite ?app_assoc_s. cbn [append]. rewrite ?app_assoc_s. cbn [append]. reflexivity. }
  rewrite EA in Pj.
  assert (DT : has_char "T" D = false).
  { unfold D. repeat (rewrite has_char_app || cbn [has_char append]). rewrite !numeral_no_char by reflexivity. rewrite (day_no_char _ _ _ Hday) by reflexivity. reflexivity. }
  assert (TT : has_char "T" Tm = false).
  { unfold Tm. repeat (rewrite has_char_app || cbn [has_char append]). rewrite !numeral_no_char by reflexivity. reflexivity. }
  assert (sep = "T"%char).
  { destruct Hsep as [-> | ->]; [reflexivity|]. exfalso. apply (f_equal (has_char "T")) in Pj. rewrite !has_char_app in Pj. cbn [has_char] in Pj. rewrite DT, TT in Pj. cbn in Pj. rewrite orb_true_r in Pj. discriminate. }
  subst sep. apply (f_equal (split "T")) in Pj. rewrite !split_app in Pj; [|exact DT|rewrite Nj, (Qq _ Tp0 eq_refl); exact Trest]. rewrite !split_none in Pj by assumption.
  apply (f_equal (fun l => (List.hd "" l, List.hd "" (List.tl l)))) in Pj. cbn [List.hd List.tl] in Pj. apply pair_equal_spec in Pj. destruct Pj as [Pd Pt]. subst time.
  apply (f_equal (split "-")) in Pd. rewrite split_of_join in Pd; [|discriminate|constructor; [apply Qq; [exact (Forall_inv FD)|reflexivity]|exact (Forall_inv_tail FD)]].
  unfold D in Pd. cbn [append] in Pd. rewrite split_app in Pd by (apply numeral_no_char; reflexivity). rewrite split_app in Pd by (apply numeral_no_char; reflexivity). rewrite split_none in Pd by (apply (day_no_char _ _ _ Hday); reflexivity).
  apply (f_equal (fun l => (List.hd "" l, List.tl l))) in Pd. cbn [List.hd List.tl] in Pd. apply pair_equal_spec in Pd. destruct Pd as [Pq Pr]. subst rest.
  assert (Hy : (1 <= dt_year t)%Z) by apply Vd. assert (F4 : fits 4 (dt_year t)) by apply Hok.
  assert (P0 : exists wy, p0 = numeral wy (dt_year t) /\ (1 <= wy <= 4)%nat /\ fits wy (dt_year t)).
  { unfold q in Pq. destruct (Nat.ltb_spec (String.length p0) 4) as [L|L]; [|exists 4%nat; split; [exact Pq|]; split; [lia|exact F4]].
    assert (N : number_from 0 p0 = Some (dt_year t)).
    { pose proof (number_numeral 4 (dt_year t) 0 F4) as N. rewrite <- Pq in N. rewrite Z.mul_0_l, Z.add_0_l in N. rewrite <- N. unfold zfill4 in *. destruct p0 as [|a r].
      - rewrite <- (app_nil_r_s (zeros _)). symmetry. apply number_zeros.
      - destruct (ceqb a "+" || ceqb a "-") eqn:G; [|symmetry; apply number_zeros]. exfalso. cbn [number_from] in N. unfold ceqb in G. apply orb_true_iff in G. destruct G as [G|G]; apply Ascii.eqb_eq in G; subst a; discriminate N. }
    destruct (number_inv _ _ _ N) as (u & Eu & Hu & Ep). rewrite Z.mul_0_l, Z.add_0_l in Eu. subst u. exists (String.length p0). split; [exact Ep|]. split; [|exact Hu].
    split; [|lia]. destruct p0 as [|a r]; [|cbn; lia]. exfalso. unfold fits in Hu. cbn in Hu. lia. }
  destruct P0 as (wy & -> & Hw & Hf). exists wy. split; [|auto]. rewrite <- JT, <- JD. unfold accepted_text. fold Tm. cbn [join]. rewrite ?app_assoc_s. cbn [append]. rewrite ?app_assoc_s. cbn [append]. rewrite ?app_assoc_s. reflexivity.
Qed.
Print Assumptions C219_only_dates.

Example C219_example : robust_parse_datetime (DString "1-2- 3t4:5:6.7") = Err ValueError /\
  robust_parse_datetime (DString "0001-2- 3t4:5:6.7") = Ok (Some (mkdt 1 2 3 4 5 6 0)) /\ robust_parse_datetime (DString "1-2- 3T4:5:6Z.x") = Ok (Some (mkdt 1 2 3 4 5 6 0)) /\
  robust_parse_datetime (DString "2020-01-01") = Err ValueError /\ robust_parse_datetime (DString "02020-01-01T00:00:00") = Err ValueError /\ robust_parse_datetime (DString "2020-01-001T00:00:00") = Err ValueError.
Proof. repeat split; reflexivity. Qed.
