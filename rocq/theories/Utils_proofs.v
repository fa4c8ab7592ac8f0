From Coq Require Import ZArith List Bool String Ascii Lia.
From Verif Require Import Base Num Dict StateM Utils_model Spec_Utils.
Import ListNotations.
Open Scope string_scope.

(** ** strings *)
Lemma app_assoc_s (a b c : string) : (a ++ b) ++ c = a ++ b ++ c.
Proof. induction a; cbn; [reflexivity|]. now rewrite IHa. Qed.
Lemma app_nil_r_s (a : string) : a ++ "" = a.
Proof. induction a; cbn; [reflexivity|]. now rewrite IHa. Qed.
Lemma length_app_s (a b : string) : String.length (a ++ b) = (String.length a + String.length b)%nat.
Proof. induction a; cbn; [reflexivity|]. now rewrite IHa. Qed.
Lemma has_char_app c a b : has_char c (a ++ b) = has_char c a || has_char c b.
Proof. induction a as [|x a IH]; cbn; [reflexivity|]. now rewrite IH, orb_assoc. Qed.
Lemma split_none c a : has_char c a = false -> split c a = [a].
Proof.
  induction a as [|x a IH]; cbn; [reflexivity|]. intros H. apply orb_false_iff in H. destruct H as [H1 H2].
  unfold ceqb in *. rewrite H1. rewrite (IH H2). reflexivity.
Qed.
Lemma split_app c a b : has_char c a = false -> split c (a ++ String c b) = a :: split c b.
Proof.
  induction a as [|x a IH]; cbn; intros H.
  - unfold ceqb. rewrite Ascii.eqb_refl. reflexivity.
  - apply orb_false_iff in H. destruct H as [H1 H2]. unfold ceqb in *. rewrite H1, (IH H2). reflexivity.
Qed.
Lemma split_not_nil c s : split c s <> [].
Proof. destruct s as [|x s]; cbn; [discriminate|]. destruct (ceqb x c); [discriminate|]. destruct (split c s); discriminate. Qed.
Lemma head_split_app c a b : has_char c a = false -> head (split c (a ++ b)) = a ++ head (split c b).
Proof.
  induction a as [|x a IH]; cbn; intros H; [reflexivity|]. apply orb_false_iff in H. destruct H as [H1 H2].
  unfold ceqb in *. rewrite H1. specialize (IH H2). destruct (split c (a ++ b)) eqn:E; [exfalso; revert E; apply split_not_nil|].
  cbn in *. now rewrite IH.
Qed.
Lemma length_split_app c a b : (2 <= length (split c (a ++ String c b)))%nat.
Proof.
  induction a as [|x a IH]; cbn.
  - unfold ceqb. rewrite Ascii.eqb_refl. cbn. pose proof (split_not_nil c b). destruct (split c b); [easy|cbn; lia].
  - destruct (ceqb x c); [cbn; lia|]. destruct (split c (a ++ String c b)); cbn in *; lia.
Qed.
Lemma split_T_app a b : has_char "T" a = false -> has_char "t" a = false -> split_T (a ++ String "T" b) = Some (a, b).
Proof.
  induction a as [|x a IH]; cbn; intros H G; [reflexivity|].
  apply orb_false_iff in H, G. destruct H as [H1 H2], G as [G1 G2]. rewrite H1, G1. cbn. now rewrite (IH H2 G2).
Qed.

(** ** numerals *)
Lemma digit_char_digit d : (0 <= d < 10)%Z -> digit (digit_char d) = Some d.
Proof.
  intros H. assert (E : (d = 0 \/ d = 1 \/ d = 2 \/ d = 3 \/ d = 4 \/ d = 5 \/ d = 6 \/ d = 7 \/ d = 8 \/ d = 9)%Z) by lia.
  repeat (destruct E as [-> |E]; [reflexivity|]). subst d. reflexivity.
Qed.
Lemma mod10 v : (0 <= v mod 10 < 10)%Z.
Proof. apply Z.mod_pos_bound. lia. Qed.
Lemma digit_eqb c x d : digit x = Some d -> digit c = None -> ceqb x c = false.
Proof. intros H G. unfold ceqb. destruct (Ascii.eqb_spec x c); [congruence|reflexivity]. Qed.
Lemma numeral_no_char c w v : digit c = None -> has_char c (numeral w v) = false.
Proof.
  intros Hc. revert v. induction w as [|w IH]; intros v; [reflexivity|]. cbn [numeral]. rewrite has_char_app, IH. cbn [has_char orb].
  rewrite (digit_eqb c _ _ (digit_char_digit _ (mod10 v)) Hc). reflexivity.
Qed.
Lemma numeral_length w v : String.length (numeral w v) = w.
Proof. revert v. induction w as [|w IH]; intros v; cbn; [reflexivity|]. rewrite length_app_s, IH. cbn. lia. Qed.
Lemma number_from_app a b acc : number_from acc (a ++ b) = match number_from acc a with Some n => number_from n b | None => None end.
Proof. revert acc. induction a as [|x a IH]; intros acc; cbn; [reflexivity|]. destruct (digit x); [apply IH|reflexivity]. Qed.
Lemma number_numeral w v acc : fits w v -> number_from acc (numeral w v) = Some (acc * 10 ^ Z.of_nat w + v)%Z.
Proof.
  unfold fits. revert v acc. induction w as [|w IH]; intros v acc H.
  - cbn in *. f_equal. lia.
  - cbn [numeral]. rewrite number_from_app, IH.
    + cbn [number_from]. rewrite digit_char_digit by apply mod10. f_equal.
      rewrite Nat2Z.inj_succ, Z.pow_succ_r by lia. pose proof (Z.div_mod v 10 ltac:(lia)). lia.
    + rewrite Nat2Z.inj_succ, Z.pow_succ_r in H by lia. split; [apply Z.div_pos; lia|]. apply Z.div_lt_upper_bound; lia.
Qed.
Lemma field_numeral lo hi vlo vhi w v : (lo <= w <= hi)%nat -> fits w v -> (vlo <= v <= vhi)%Z -> field lo hi vlo vhi (numeral w v) = Some v.
Proof.
  intros Hw Hf Hv. unfold field. rewrite numeral_length. destruct (Nat.leb_spec lo w); [|lia]. destruct (Nat.leb_spec w hi); [|lia]. cbn [andb].
  rewrite number_numeral by exact Hf. replace (0 * 10 ^ Z.of_nat w + v)%Z with v by lia.
  destruct (Z.leb_spec vlo v); [|lia]. destruct (Z.leb_spec v vhi); [|lia]. reflexivity.
Qed.
Lemma zeros_length n : String.length (zeros n) = n.
Proof. induction n; cbn; congruence. Qed.
Lemma zeros_no_char c n : digit c = None -> has_char c (zeros n) = false.
Proof.
  intros Hc. induction n; [reflexivity|]. cbn [zeros has_char]. rewrite IHn, orb_false_r. apply (digit_eqb c "0" 0); [reflexivity|exact Hc].
Qed.
Lemma number_zeros n s : number_from 0 (zeros n ++ s) = number_from 0 s.
Proof. induction n; cbn; [reflexivity|]. exact IHn. Qed.

(** the first character of a numeral is a digit *)
Lemma numeral_head w v : (1 <= w)%nat -> exists c t d, numeral w v = String c t /\ digit c = Some d.
Proof.
  revert v. induction w as [|w IH]; intros v Hw; [lia|]. cbn [numeral]. destruct w.
  - cbn. do 3 eexists. split; [reflexivity|]. apply digit_char_digit, mod10.
  - destruct (IH (v / 10)%Z ltac:(lia)) as (c & t & d & E & Hd). rewrite E. cbn. do 3 eexists. split; [reflexivity|exact Hd].
Qed.
Lemma zfill_numeral w v : (1 <= w)%nat -> zfill4 (numeral w v) = zeros (4 - w) ++ numeral w v.
Proof.
  intros Hw. pose proof (numeral_length w v) as L. destruct (numeral_head w v Hw) as (c & t & d & E & Hd). unfold zfill4. rewrite E in *.
  rewrite (digit_eqb "+" c d Hd eq_refl), (digit_eqb "-" c d Hd eq_refl). cbn [orb]. rewrite L. reflexivity.
Qed.

(** ** the calendar *)
Lemma divide_mod a y : (0 < a)%Z -> (a | y)%Z <-> (y mod a = 0)%Z.
Proof. intros H. rewrite Z.mod_divide by lia. tauto. Qed.
Lemma leap_spec y : leap y = true <-> leap_year y.
Proof.
  unfold leap, leap_year. rewrite andb_true_iff, orb_true_iff, negb_true_iff, Z.eqb_eq, Z.eqb_neq, Z.eqb_eq.
  rewrite !divide_mod by lia. tauto.
Qed.
Lemma days_in_month_spec y mo n : month_length y mo n -> days_in_month y mo = n /\ (1 <= mo <= 12)%Z.
Proof.
  intros H. unfold days_in_month. destruct H as [[-> H]|[[H ->]|[H ->]]].
  - cbn. split; [|lia]. destruct (leap y) eqn:E; destruct H as [[H ->]|[H ->]]; try reflexivity.
    + exfalso. apply H, leap_spec, E.
    + exfalso. apply leap_spec in H. congruence.
  - cbn in H. repeat destruct H as [<- |H]; cbn; try (split; [reflexivity|lia]). contradiction.
  - cbn in H. repeat destruct H as [<- |H]; cbn; try (split; [reflexivity|lia]). contradiction.
Qed.
Lemma month_length_ex y mo : (1 <= mo <= 12)%Z -> month_length y mo (days_in_month y mo).
Proof.
  intros H. unfold month_length, days_in_month. assert (E : (mo = 1 \/ mo = 2 \/ mo = 3 \/ mo = 4 \/ mo = 5 \/ mo = 6 \/ mo = 7 \/ mo = 8 \/ mo = 9 \/ mo = 10 \/ mo = 11 \/ mo = 12)%Z) by lia.
  repeat (destruct E as [-> |E]; [cbn; try (right; right; cbn; split; [tauto|reflexivity]); try (right; left; cbn; split; [tauto|reflexivity])|]).
  - left. split; [reflexivity|]. destruct (leap y) eqn:F; [left|right]; (split; [|reflexivity]); [apply leap_spec, F|]. intros G. apply leap_spec in G. congruence.
  - subst mo. cbn. right; right; cbn; split; [tauto|reflexivity].
Qed.
Ltac leb_true := repeat match goal with |- context [(?a <=? ?b)%Z] => rewrite (proj2 (Z.leb_le a b)) by lia end; cbn [andb].
Lemma make_datetime_ok y mo d h mi s us : valid_date y mo d -> valid_time h mi s -> (0 <= us <= 999999)%Z ->
  make_datetime y mo d h mi s us = Ok (mkdt y mo d h mi s us).
Proof.
  intros [Hy (n & Hn & Hd)] (Hh & Hm & Hs) Hu. destruct (days_in_month_spec _ _ _ Hn) as [E Hmo]. unfold make_datetime. rewrite E. leb_true. reflexivity.
Qed.
Lemma make_datetime_inv y mo d h mi s us t : make_datetime y mo d h mi s us = Ok t ->
  t = mkdt y mo d h mi s us /\ valid_date y mo d /\ valid_time h mi s.
Proof.
  unfold make_datetime. intros H. destruct (_ && _)%bool eqn:E in H; [|discriminate]. injection H as <-. split; [reflexivity|].
  repeat (apply andb_true_iff in E; destruct E as [E ?]). repeat match goal with H : (_ <=? _)%Z = true |- _ => apply Z.leb_le in H end.
  split; [split; [lia|]|unfold valid_time; lia]. exists (days_in_month y mo). split; [apply month_length_ex; lia|lia].
Qed.
