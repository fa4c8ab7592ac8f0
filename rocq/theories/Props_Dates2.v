(** * C219, the converse: every text of the form is accepted *)
From Coq Require Import ZArith List Bool String Ascii Lia.
From Verif Require Import Base Num Dict StateM Utils_model Spec_Utils Utils_proofs Props_Utils Props_Dates.
Import ListNotations.
Open Scope string_scope.

Lemma day_no_char' d day : day_text d day -> forall c, digit c = None -> c <> " "%char -> has_char c day = false.
Proof.
  intros Hday c Hc Hb. destruct Hday; [apply numeral_no_char; exact Hc|]. rewrite has_char_app, numeral_no_char by exact Hc. cbn [has_char]. unfold ceqb.
  destruct (Ascii.eqb_spec " " c) as [<-|]; [contradiction|]. reflexivity.
Qed.
Section Accepted.
  Variables (wy wmo wh wmi ws : nat) (day : string) (sep : ascii) (y mo d h mi s : Z).
  Hypothesis Hok : digits_ok wy wmo wh wmi ws y mo h mi s.
  Hypothesis Hday : day_text d day.
  Let txt (w : nat) := accepted_text w wmo wh wmi ws day sep y mo h mi s.
  Ltac nochar := repeat (rewrite has_char_app || cbn [has_char append]); rewrite ?numeral_no_char, ?zeros_no_char by reflexivity; cbn [orb]; reflexivity.
  Notation day_no_char := (day_no_char' d day Hday).
  Lemma day_value : valid_date y mo d -> day_field day = Some d.
  Proof.
    intros [Hy (n & Hn & Hd)]. pose proof (days_in_month_spec _ _ _ Hn) as [E _]. assert (n <= 31)%Z. { rewrite <- E. unfold days_in_month. repeat destruct (_ =? _)%Z; cbn; try lia; destruct (leap y); lia. }
    destruct Hday as [w Hw F|F].
    - transitivity (field 1 2 1 31 (numeral w d)); [|apply field_numeral; [lia|exact F|lia]]. unfold day_field.
      destruct (numeral_head w d ltac:(lia)) as (c & t & e & En & Hc). rewrite En. destruct c as [[] [] [] [] [] [] [] []]; try reflexivity; discriminate Hc.
    - assert (R : (1 <= d <= 9)%Z) by (unfold fits in F; cbn in F; lia).
      destruct (numeral_head 1 d ltac:(lia)) as (c & t & e & En & Hc). pose proof (numeral_length 1 d) as L. rewrite En in L. cbn in L. destruct t; [|discriminate].
      change (" " ++ numeral 1 d) with (String " " (numeral 1 d)). rewrite En. cbn [day_field]. rewrite <- En. apply field_numeral; [lia|exact F|lia].
  Qed.
  (** the text with four digits of the year, either separator *)
  Lemma strptime_accepted w pre : sep = "T"%char \/ sep = "t"%char -> pre ++ numeral w y = zeros (4 - w) ++ numeral w y -> (1 <= w <= 4)%nat -> fits w y ->
    valid_date y mo d -> valid_time h mi s -> strptime (pre ++ txt w) = Ok (mkdt y mo d h mi s 0).
  Proof.
    intros Hs Hp Hw Fy Hd Ht. destruct Hok as (_ & (W2 & F2) & (W4 & F4) & (W5 & F5) & (W6 & F6)). unfold strptime, txt, accepted_text.
    pose proof (day_no_char "T" eq_refl ltac:(discriminate)) as N1. pose proof (day_no_char "t" eq_refl ltac:(discriminate)) as N2. pose proof (day_no_char "-" eq_refl ltac:(discriminate)) as N3.
    replace (pre ++ numeral w y ++ "-" ++ numeral wmo mo ++ "-" ++ day ++ String sep (numeral wh h ++ ":" ++ numeral wmi mi ++ ":" ++ numeral ws s))
      with (((zeros (4 - w) ++ numeral w y) ++ "-" ++ numeral wmo mo ++ "-" ++ day) ++ String sep (numeral wh h ++ ":" ++ numeral wmi mi ++ ":" ++ numeral ws s))
      by (rewrite <- Hp; rewrite !app_assoc_s; cbn [append]; rewrite ?app_assoc_s; cbn [append]; rewrite ?app_assoc_s; reflexivity).
    assert (K : forall a b, has_char "T" a = false -> has_char "t" a = false -> split_T (a ++ String sep b) = Some (a, b)).
    { induction a as [|c a IH]; intros b A1 A2; cbn [append split_T].
      - destruct Hs as [-> | ->]; reflexivity.
      - cbn [has_char] in A1, A2. apply orb_false_iff in A1, A2. destruct A1 as [A1 A3], A2 as [A2 A4]. rewrite A1, A2. cbn [orb]. rewrite IH by assumption. reflexivity. }
    rewrite K.
    2:{ repeat (rewrite has_char_app || cbn [has_char append]). rewrite ?numeral_no_char, ?zeros_no_char, N1 by reflexivity. reflexivity. }
    2:{ repeat (rewrite has_char_app || cbn [has_char append]). rewrite ?numeral_no_char, ?zeros_no_char, N2 by reflexivity. reflexivity. }
    cbn [append]. rewrite split_app by nochar. rewrite split_app by nochar. rewrite (split_none "-" day) by exact N3.
    rewrite split_app by nochar. rewrite split_app by nochar. rewrite split_none by nochar.
    rewrite (day_value Hd). pose proof Hd as [Hy (n & Hn & Hd')]. pose proof (days_in_month_spec _ _ _ Hn) as [E Hmo]. destruct Ht as (Hh & Hmi & Hse).
    assert (E1 : field 4 4 0 9999 (zeros (4 - w) ++ numeral w y) = Some y).
    { unfold field. rewrite length_app_s, zeros_length, numeral_length. replace (4 - w + w)%nat with 4%nat by lia. cbn [Nat.leb andb].
      rewrite number_zeros, number_numeral by exact Fy. replace (0 * 10 ^ Z.of_nat w + y)%Z with y by lia.
      rewrite (proj2 (Z.leb_le 0 y)), (proj2 (Z.leb_le y 9999)) by lia. reflexivity. }
    rewrite E1. rewrite !field_numeral by first [assumption|lia]. apply make_datetime_ok; [exact Hd|unfold valid_time; lia|lia].
  Qed.
  Lemma pad_accepted : sep = "T"%char -> pad_year (txt wy) = Ok (zeros (4 - wy) ++ txt wy).
  Proof.
    intros ->. destruct Hok as ((Wy & Fy) & _). unfold txt, accepted_text, pad_year.
    pose proof (day_no_char "T" eq_refl ltac:(discriminate)) as N1. pose proof (day_no_char "-" eq_refl ltac:(discriminate)) as N3.
    replace (numeral wy y ++ "-" ++ numeral wmo mo ++ "-" ++ day ++ String "T" (numeral wh h ++ ":" ++ numeral wmi mi ++ ":" ++ numeral ws s))
      with ((numeral wy y ++ "-" ++ numeral wmo mo ++ "-" ++ day) ++ String "T" (numeral wh h ++ ":" ++ numeral wmi mi ++ ":" ++ numeral ws s))
      by (rewrite !app_assoc_s; cbn [append]; rewrite ?app_assoc_s; reflexivity).
    assert (E : has_char "T" ((numeral wy y ++ "-" ++ numeral wmo mo ++ "-" ++ day) ++ String "T" (numeral wh h ++ ":" ++ numeral wmi mi ++ ":" ++ numeral ws s)) = true).
    { rewrite has_char_app. cbn [has_char]. apply orb_true_r. }
    rewrite E. rewrite split_app.
    2:{ repeat (rewrite has_char_app || cbn [has_char append]). rewrite ?numeral_no_char, N1 by reflexivity. reflexivity. }
    rewrite split_none by nochar. cbn [append]. rewrite split_app by nochar. rewrite split_app by nochar. rewrite (split_none "-" day) by exact N3. cbn [join append].
    assert (E2 : (if (String.length (numeral wy y) <? 4)%nat then zfill4 (numeral wy y) else numeral wy y) = zeros (4 - wy) ++ numeral wy y).
    { rewrite numeral_length. destruct (Nat.ltb_spec wy 4); [apply zfill_numeral; lia|]. replace (4 - wy)%nat with 0%nat by lia. reflexivity. }
    rewrite E2. f_equal. rewrite ?app_assoc_s. cbn [append]. rewrite ?app_assoc_s. cbn [append]. rewrite ?app_assoc_s. reflexivity.
  Qed.
  Lemma pad_small_t : sep = "t"%char -> pad_year (txt wy) = Ok (txt wy).
  Proof.
    intros ->. unfold pad_year. replace (has_char "T" (txt wy)) with false; [reflexivity|]. symmetry. unfold txt, accepted_text.
    pose proof (day_no_char "T" eq_refl ltac:(discriminate)) as N1. repeat (rewrite has_char_app || cbn [has_char append]). rewrite ?numeral_no_char, N1 by reflexivity. reflexivity.
  Qed.
  Lemma accepted : (sep = "T"%char \/ sep = "t"%char /\ wy = 4%nat) -> valid_date y mo d -> valid_time h mi s ->
    forall suffix, suffix = "" \/ (exists r, suffix = String "." r) \/ (exists r, suffix = String "Z" r) ->
    robust_parse_datetime (DString (txt wy ++ suffix)) = Ok (Some (mkdt y mo d h mi s 0)).
  Proof.
    intros Hs Hd Ht suffix Hx. pose proof Hok as ((Wy & Fy) & _). unfold robust_parse_datetime.
    assert (Hn : forall c, digit c = None -> c <> " "%char -> ceqb "-" c = false -> ceqb ":" c = false -> ceqb sep c = false -> has_char c (txt wy) = false).
    { intros c H1 H2 H3 H4 H5. unfold txt, accepted_text. repeat (rewrite has_char_app || cbn [has_char append]). rewrite ?numeral_no_char by exact H1. rewrite (day_no_char c H1 H2), H3, H4, H5. reflexivity. }
    assert (E : head (split "." (head (split "Z" (txt wy ++ suffix)))) = txt wy).
    { rewrite head_split_app by (apply Hn; try reflexivity; try discriminate; destruct Hs as [-> |[-> _]]; reflexivity). rewrite head_split_app by (apply Hn; try reflexivity; try discriminate; destruct Hs as [-> |[-> _]]; reflexivity).
      assert (E : head (split "." (head (split "Z" suffix))) = "").
      { destruct Hx as [-> |[[r ->]|[r ->]]]; [reflexivity| |reflexivity]. cbn. destruct (split "Z" r); reflexivity. }
      rewrite E. apply app_nil_r_s. }
    rewrite E. destruct Hs as [Hs|[Hs Hw]].
    - rewrite (pad_accepted Hs). cbn [rbind]. rewrite (strptime_accepted wy (zeros (4 - wy))); auto.
    - rewrite (pad_small_t Hs). cbn [rbind]. change (txt wy) with ("" ++ txt wy). rewrite (strptime_accepted wy ""); auto. rewrite Hw. reflexivity.
  Qed.
End Accepted.

(** what the parser accepts, exactly *)
Theorem C219_exactly : forall x t, robust_parse_datetime (DString x) = Ok (Some t) <->
  exists wy wmo wh wmi ws day sep suffix,
  x = accepted_text wy wmo wh wmi ws day sep (dt_year t) (dt_month t) (dt_hour t) (dt_minute t) (dt_second t) ++ suffix /\
  digits_ok wy wmo wh wmi ws (dt_year t) (dt_month t) (dt_hour t) (dt_minute t) (dt_second t) /\
  day_text (dt_day t) day /\ (sep = "T"%char \/ sep = "t"%char /\ wy = 4%nat) /\
  (suffix = "" \/ (exists r, suffix = String "." r) \/ (exists r, suffix = String "Z" r)) /\
  valid_date (dt_year t) (dt_month t) (dt_day t) /\ valid_time (dt_hour t) (dt_minute t) (dt_second t) /\ dt_micro t = 0%Z.
Proof.
  intros x t. split; [apply C219_only_dates|]. intros (wy & wmo & wh & wmi & ws & day & sep & suffix & -> & Hok & Hday & Hs & Hx & Hd & Ht & Hu).
  destruct t as [y mo d h mi s us]. cbn [dt_year dt_month dt_day dt_hour dt_minute dt_second dt_micro] in *. subst us. apply accepted; assumption.
Qed.
Print Assumptions C219_exactly.
Example C219_case_blank : robust_parse_datetime (DString "987-3- 7T4:05:6.25") = Ok (Some (mkdt 987 3 7 4 5 6 0)) /\ robust_parse_datetime (DString "1987-03-07t04:05:06Z") = Ok (Some (mkdt 1987 3 7 4 5 6 0)).
Proof. split; reflexivity. Qed.
