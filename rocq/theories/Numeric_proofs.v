(** * Lemmas about the conversion of texts to numbers *)
From Coq Require Import ZArith List Bool String Ascii Lia.
From Verif Require Import Base Num Utils_model Numeric_model Spec_Numeric.
Import ListNotations.
Open Scope string_scope.

Lemma digit_char_code d : (d < 10)%nat -> nat_of_ascii (digit_char d) = (48 + d)%nat.
Proof. intros H. unfold digit_char. apply nat_ascii_embedding. lia. Qed.
Lemma digit_digit d : (d < 10)%nat -> digit (digit_char d) = Some (Z.of_nat d).
Proof.
  intros H. unfold digit. rewrite digit_char_code by exact H.
  replace ((48 <=? Z.of_nat (48 + d)) && (Z.of_nat (48 + d) <=? 57))%Z with true; [f_equal; lia|]. symmetry. apply andb_true_iff. split; apply Z.leb_le; lia.
Qed.
Lemma digit_inv c z : digit c = Some z -> exists d, (d < 10)%nat /\ c = digit_char d /\ z = Z.of_nat d.
Proof.
  unfold digit. destruct ((48 <=? _) && _)%Z eqn:E; [|discriminate]. intros [= <-]. apply andb_true_iff in E. destruct E as [E1 E2]. apply Z.leb_le in E1, E2.
  exists (nat_of_ascii c - 48)%nat. split; [lia|]. split; [|lia]. unfold digit_char. replace (48 + (nat_of_ascii c - 48))%nat with (nat_of_ascii c) by lia. symmetry. apply ascii_nat_embedding.
Qed.
Lemma blank_iff c : blank c = true <-> white c.
Proof.
  unfold blank, white. rewrite orb_true_iff, andb_true_iff, !Nat.leb_le, Nat.eqb_eq. cbn [In]. lia.
Qed.
Lemma blank_digit c : white c -> digit c = None.
Proof. intros H. destruct (digit c) as [z|] eqn:E; [|reflexivity]. destruct (digit_inv c z E) as (d & Hd & -> & _). unfold white in H. rewrite digit_char_code in H by exact Hd. cbn [In] in H. lia. Qed.

Definition stops (s : string) : Prop := match s with EmptyString => True | String c _ => digit c = None end.
Definition solid (s : string) : Prop := match s with EmptyString => True | String c _ => blank c = false end.
Lemma sapp_assoc (a b c : string) : (a ++ b) ++ c = a ++ (b ++ c).
Proof. induction a as [|x a IH]; cbn; [reflexivity|]. rewrite IH. reflexivity. Qed.
Lemma sapp_nil (a : string) : a ++ "" = a.
Proof. induction a as [|x a IH]; cbn; [reflexivity|]. rewrite IH. reflexivity. Qed.

Lemma skip_app b s : all_white b -> skip_blanks (b ++ s) = skip_blanks s.
Proof. induction b as [|c b IH]; cbn; [reflexivity|]. intros [H1 H2]. rewrite (proj2 (blank_iff c) H1). apply IH. exact H2. Qed.
Lemma skip_solid s : solid s -> skip_blanks s = s.
Proof. destruct s; cbn; [reflexivity|]. intros ->. reflexivity. Qed.
Lemma skip_inv s : exists b, all_white b /\ s = b ++ skip_blanks s /\ solid (skip_blanks s).
Proof.
  induction s as [|c s IH]; [exists ""; repeat split|]. cbn [skip_blanks]. destruct (blank c) eqn:E.
  - destruct IH as (b & H1 & H2 & H3). exists (String c b). split; [split; [apply blank_iff; exact E|exact H1]|]. split; [cbn; rewrite <- H2; reflexivity|exact H3].
  - exists "". repeat split. exact E.
Qed.
Lemma skip_white_nil s : skip_blanks s = "" <-> all_white s.
Proof.
  split.
  - destruct (skip_inv s) as (b & H1 & H2 & _). intros E. rewrite E, sapp_nil in H2. congruence.
  - intros H. rewrite <- (sapp_nil s), skip_app by exact H. reflexivity.
Qed.

Section P.
  Context {T : Type} {N : Num T}.
  Local Open Scope num_scope.

  Definition acc (x : T) (ds : list nat) : T := fold_left (fun a d => a * ofZ 10 + ofZ (Z.of_nat d)) ds x.
  Lemma acc_app x a b : acc x (app a b) = acc (acc x a) b.
  Proof. apply fold_left_app. Qed.

  Lemma int_digits_run ds : forall rest x nd ex, all_digits ds -> stops rest ->
    int_digits (digits_text ds ++ rest) x nd ex =
      (acc x (firstn (17 - nd) ds), (nd + List.length (firstn (17 - nd) ds))%nat,
       (ex + Z.of_nat (List.length ds - List.length (firstn (17 - nd) ds)))%Z, rest).
  Proof.
    induction ds as [|d ds IH]; intros rest x nd ex Hd Hr.
    - cbn [digits_text append]. rewrite firstn_nil. cbn [List.length acc fold_left Nat.sub]. rewrite Nat.add_0_r. change (Z.of_nat 0) with 0%Z. rewrite Z.add_0_r.
      destruct rest as [|c rest]; [reflexivity|]. cbn [stops] in Hr. cbn [int_digits]. rewrite Hr. reflexivity.
    - cbn [digits_text append int_digits]. pose proof (Forall_inv Hd) as H1. pose proof (Forall_inv_tail Hd) as H2. cbv beta in H1. rewrite digit_digit by exact H1.
      unfold max_digits. destruct (Nat.ltb_spec nd 17) as [L|L].
      + rewrite IH by assumption. replace (17 - nd)%nat with (S (17 - S nd)) by lia. cbn [firstn List.length acc fold_left]. apply f_equal2; [|reflexivity]. apply f_equal2; [apply f_equal2; [reflexivity|lia]|lia].
      + rewrite IH by assumption. replace (17 - nd)%nat with 0%nat by lia. cbn [firstn List.length acc fold_left]. apply f_equal2; [|reflexivity]. apply f_equal2; [apply f_equal2; [reflexivity|lia]|lia].
  Qed.
  Lemma dec_digits_run ds : forall rest x nd ex, all_digits ds -> stops rest ->
    dec_digits (digits_text ds ++ rest) x nd ex =
      (acc x (firstn (17 - nd) ds), (nd + List.length (firstn (17 - nd) ds))%nat,
       (ex - Z.of_nat (List.length (firstn (17 - nd) ds)))%Z, rest).
  Proof.
    induction ds as [|d ds IH]; intros rest x nd ex Hd Hr.
    - cbn [digits_text append]. rewrite firstn_nil. cbn [List.length acc fold_left Nat.sub]. rewrite Nat.add_0_r. change (Z.of_nat 0) with 0%Z. rewrite Z.sub_0_r.
      destruct rest as [|c rest]; [reflexivity|]. cbn [stops] in Hr. cbn [dec_digits]. rewrite Hr. reflexivity.
    - cbn [digits_text append dec_digits]. pose proof (Forall_inv Hd) as H1. pose proof (Forall_inv_tail Hd) as H2. cbv beta in H1. rewrite digit_digit by exact H1.
      unfold max_digits. destruct (Nat.ltb_spec nd 17) as [L|L].
      + rewrite IH by assumption. replace (17 - nd)%nat with (S (17 - S nd)) by lia. cbn [firstn List.length acc fold_left]. apply f_equal2; [|reflexivity]. apply f_equal2; [apply f_equal2; [reflexivity|lia]|lia].
      + rewrite IH by assumption. replace (17 - nd)%nat with 0%nat by lia. cbn [firstn List.length acc fold_left]. apply f_equal2; [|reflexivity]. apply f_equal2; [apply f_equal2; [reflexivity|lia]|lia].
  Qed.
  Lemma exp_digits_run ds : forall rest n nd, all_digits ds -> stops rest -> (nd + List.length ds <= 17)%nat ->
    exp_digits (digits_text ds ++ rest) n nd = (fold_left (fun a d => 10 * a + Z.of_nat d)%Z ds n, (nd + List.length ds)%nat, rest).
  Proof.
    induction ds as [|d ds IH]; intros rest n nd Hd Hr Hl.
    - cbn [digits_text append List.length fold_left]. rewrite Nat.add_0_r. destruct rest as [|c rest]; [reflexivity|]. cbn [stops] in Hr. cbn [exp_digits]. rewrite Hr. reflexivity.
    - cbn [digits_text append exp_digits]. pose proof (Forall_inv Hd) as H1. pose proof (Forall_inv_tail Hd) as H2. cbv beta in H1. cbn [List.length] in Hl. rewrite digit_digit by exact H1.
      unfold max_digits. destruct (Nat.ltb_spec nd 17) as [L|L]; [|lia]. rewrite IH by (try assumption; lia). cbn [fold_left List.length]. apply f_equal2; [|reflexivity]. apply f_equal2; [reflexivity|lia].
  Qed.

  (** the digits that are used, and the shift *)
  Definition used (n : numeral) : list nat := firstn 17 (app (n_int n) (frac_digits n)).
  Definition shift (n : numeral) : Z :=
    (Z.of_nat (List.length (n_int n)) - Z.of_nat (List.length (used n)) + match n_exp n with Some (_, s, ds) => sgn_Z s * digits_value ds | None => 0 end)%Z.
  Definition signed (s : sgn) (x : T) : T := match s with Minus => nopp x | _ => x end.

  Lemma white_stops b : all_white b -> stops b.
  Proof. destruct b; cbn; [trivial|]. intros [H _]. apply blank_digit. exact H. Qed.
  Lemma sign_digits ds rest : all_digits ds -> stops rest -> (ds <> [] \/ match rest with String c _ => ceqb c "-" = false /\ ceqb c "+" = false | "" => True end) -> 
    forall s, sign (sgn_text s ++ (digits_text ds ++ rest)) = (match s with Minus => true | _ => false end, digits_text ds ++ rest).
  Proof.
    intros Hd Hr Hs s. destruct s; [|reflexivity|reflexivity]. cbn [sgn_text append]. destruct ds as [|d ds]; cbn [digits_text append].
    - destruct Hs as [C|Hs]; [congruence|]. destruct rest as [|c rest]; [reflexivity|]. destruct Hs as [H1 H2]. cbn [sign]. rewrite H1, H2. reflexivity.
    - pose proof (Forall_inv Hd) as H1. cbv beta in H1. cbn [sign]. assert (Q : forall k, nat_of_ascii k <> (48 + d)%nat -> ceqb (digit_char d) k = false).
      { intros k Hk. unfold ceqb. apply Ascii.eqb_neq. intros C. apply Hk. rewrite <- C. apply digit_char_code. exact H1. }
      rewrite !Q; [reflexivity| |]; cbn; lia.
  Qed.

  Definition exp_text (n : numeral) : string := match n_exp n with Some (cap, s, ds) => (if cap then "E" else "e") ++ sgn_text s ++ digits_text ds | None => "" end.
  Definition frac_text (n : numeral) : string := match n_frac n with Some f => "." ++ digits_text f | None => "" end.
  Lemma numeral_text_eq n : numeral_text n = sgn_text (n_sign n) ++ digits_text (n_int n) ++ frac_text n ++ exp_text n.
  Proof. reflexivity. Qed.
  Lemma exp_stops n b : all_white b -> stops (exp_text n ++ b).
  Proof. intros H. unfold exp_text. destruct (n_exp n) as [[[[] s] ds]|]; [reflexivity|reflexivity|apply white_stops; exact H]. Qed.
  Lemma frac_stops n b : all_white b -> stops (frac_text n ++ (exp_text n ++ b)).
  Proof. intros H. unfold frac_text. destruct (n_frac n); [reflexivity|]. apply exp_stops. exact H. Qed.
  Lemma used_split n : used n = app (firstn 17 (n_int n)) (firstn (17 - List.length (firstn 17 (n_int n))) (frac_digits n)).
  Proof.
    unfold used. rewrite firstn_app. f_equal. f_equal. rewrite firstn_length. lia.
  Qed.

  Lemma after_exponent n b : all_white b -> well_formed n -> forall ex0 int1,
    match (exp_text n ++ b) with
    | String c t =>
        if ceqb c "e" || ceqb c "E" then
          let '(eneg, t) := sign t in
          let '(m, k, t) := exp_digits t 0%Z 0 in
          if (k =? 0)%nat then None else Some ((if eneg then ex0 - m else ex0 + m)%Z, false, t)
        else Some (ex0, int1, exp_text n ++ b)
    | EmptyString => Some (ex0, int1, exp_text n ++ b)
    end = Some ((ex0 + match n_exp n with Some (_, s, ds) => sgn_Z s * digits_value ds | None => 0 end)%Z,
                match n_exp n with None => int1 | Some _ => false end, b).
  Proof.
    intros Hb (_ & _ & _ & He) ex0 int1. unfold exp_text. destruct (n_exp n) as [[[cap s] ds]|].
    - destruct He as [Hd Hl]. assert (E : (if cap then "E" else "e") = String (if cap then "E" else "e")%char "") by (destruct cap; reflexivity). rewrite E. cbn [append].
      assert (Ec : ceqb (if cap then "E" else "e")%char "e" || ceqb (if cap then "E" else "e")%char "E" = true) by (destruct cap; reflexivity). rewrite Ec.
      rewrite sapp_assoc. rewrite sign_digits; [|exact Hd|apply white_stops; exact Hb|left; destruct ds; [cbn in Hl; lia|discriminate]].
      rewrite exp_digits_run; [|exact Hd|apply white_stops; exact Hb|cbn; lia]. cbn [Nat.add]. destruct (Nat.eqb_spec (List.length ds) 0); [lia|]. fold (digits_value ds).
      destruct s; cbn [sgn_Z]; repeat f_equal; lia.
    - cbn [append]. rewrite Z.add_0_r. destruct b as [|c b]; [reflexivity|]. destruct Hb as [Hc _].
      assert (Ec : ceqb c "e" || ceqb c "E" = false). { apply orb_false_iff. unfold ceqb. split; apply Ascii.eqb_neq; intros ->; unfold white in Hc; cbn in Hc; lia. }
      rewrite Ec. reflexivity.
  Qed.

  Theorem xstrtod_spelled n b1 b2 : all_white b1 -> all_white b2 -> well_formed n ->
    xstrtod (b1 ++ numeral_text n ++ b2) =
      match scale (signed (n_sign n) (acc zero (used n))) (shift n) with Some v => Some (v, is_integer n) | None => None end.
  Proof.
    intros H1 H2 W. pose proof W as (Wi & Wf & Wn & We). unfold xstrtod. rewrite skip_app by exact H1.
    rewrite numeral_text_eq, !sapp_assoc.
    assert (So : solid (sgn_text (n_sign n) ++ (digits_text (n_int n) ++ (frac_text n ++ (exp_text n ++ b2))))).
    { destruct (n_sign n); [|reflexivity|reflexivity]. cbn [sgn_text append]. destruct (n_int n) as [|d ds] eqn:Ei.
      - unfold frac_text, frac_digits in *. destruct (n_frac n); [reflexivity|]. exfalso. apply Wn. reflexivity.
      - cbn [digits_text append solid]. pose proof (Forall_inv Wi) as Hd. cbv beta in Hd. unfold blank. rewrite digit_char_code by exact Hd.
        apply orb_false_iff. split; [apply andb_false_iff; right; apply Nat.leb_gt; lia|apply Nat.eqb_neq; lia]. }
    rewrite skip_solid by exact So.
    rewrite sign_digits; [|exact Wi|apply frac_stops; exact H2|].
    2:{ destruct (n_int n) eqn:Ei; [right|left; discriminate]. unfold frac_text, frac_digits in *. destruct (n_frac n); [split; reflexivity|]. exfalso. apply Wn. reflexivity. }
    rewrite int_digits_run by (try exact Wi; apply frac_stops; exact H2). cbn [Nat.add]. change (17 - 0)%nat with 17%nat.
    set (u := firstn 17 (n_int n)).
    assert (M : match (frac_text n ++ (exp_text n ++ b2)) with
      | String c t => if ceqb c "." then (dec_digits t (acc zero u) (List.length u) (0 + Z.of_nat (List.length (n_int n) - List.length u))%Z, false)
                      else (acc zero u, List.length u, (0 + Z.of_nat (List.length (n_int n) - List.length u))%Z, frac_text n ++ (exp_text n ++ b2), true)
      | EmptyString => (acc zero u, List.length u, (0 + Z.of_nat (List.length (n_int n) - List.length u))%Z, frac_text n ++ (exp_text n ++ b2), true)
      end = (acc zero (used n), List.length (used n), (Z.of_nat (List.length (n_int n)) - Z.of_nat (List.length (used n)))%Z, exp_text n ++ b2,
             match n_frac n with None => true | Some _ => false end)).
    { assert (Lu : (List.length u <= List.length (n_int n))%nat) by (unfold u; rewrite firstn_length; lia).
      rewrite used_split. fold u. unfold frac_text, frac_digits in *. destruct (n_frac n) as [f|].
      - cbn [append]. change (ceqb "." ".") with true. cbv iota. rewrite dec_digits_run by (try exact Wf; apply exp_stops; exact H2).
        rewrite acc_app, app_length. apply f_equal2; [|reflexivity]. apply f_equal2; [|reflexivity]. apply f_equal2; [reflexivity|lia].
      - cbn [append]. rewrite firstn_nil, app_nil_r.
        replace (Z.of_nat (List.length (n_int n)) - Z.of_nat (List.length u))%Z with (0 + Z.of_nat (List.length (n_int n) - List.length u))%Z by lia.
        pose proof (exp_stops n b2 H2) as St.
        destruct (exp_text n ++ b2) as [|c t] eqn:Eq; [reflexivity|]. assert (Ec : ceqb c "." = false); [|rewrite Ec; reflexivity].
        unfold ceqb. apply Ascii.eqb_neq. intros ->. unfold exp_text in Eq. destruct (n_exp n) as [[[[] ?] ?]|]; try discriminate. cbn in Eq. rewrite Eq in H2. destruct H2 as [H2 _]. unfold white in H2. cbn in H2. lia. }
    rewrite M. clear M.
    assert (Un : List.length (used n) <> 0%nat).
    { unfold used. rewrite firstn_length. destruct (app (n_int n) (frac_digits n)); [congruence|cbn; lia]. }
    destruct (Nat.eqb_spec (List.length (used n)) 0) as [C|_]; [congruence|].
    cbv zeta. rewrite (after_exponent n b2 H2 W). fold (shift n).
    assert (Sg : (if match n_sign n with Minus => true | _ => false end then nopp (acc zero (used n)) else acc zero (used n)) = signed (n_sign n) (acc zero (used n))) by (destruct (n_sign n); reflexivity).
    rewrite Sg. destruct (scale _ _); [|reflexivity]. rewrite (proj2 (skip_white_nil b2) H2). unfold is_integer. destruct (n_frac n), (n_exp n); reflexivity.
  Qed.
End P.

(** ** the converse: what is read was spelled *)
Section Converse.
  Context {T : Type} {N : Num T}.
  Lemma int_digits_inv s : forall (x : T) nd ex x' nd' ex' r, int_digits s x nd ex = (x', nd', ex', r) ->
    exists ds, all_digits ds /\ s = digits_text ds ++ r /\ stops r /\ (nd' = 0%nat <-> nd = 0%nat /\ ds = []).
  Proof.
    induction s as [|c s IH]; intros x nd ex x' nd' ex' r.
    - cbn. intros [= <- <- <- <-]. exists []. repeat split; try constructor; try tauto; intuition congruence.
    - cbn [int_digits]. destruct (digit c) as [z|] eqn:E.
      + destruct (digit_inv c z E) as (d & Hd & -> & ->). unfold max_digits. destruct (Nat.ltb_spec nd 17) as [l|l]; intros H; apply IH in H; destruct H as (ds & H1 & H2 & H3 & H4).
        * exists (d :: ds). split; [constructor; assumption|]. split; [cbn; rewrite H2; reflexivity|]. split; [exact H3|]. rewrite H4. split; intros [? ?]; try discriminate; lia.
        * exists (d :: ds). split; [constructor; assumption|]. split; [cbn; rewrite H2; reflexivity|]. split; [exact H3|]. rewrite H4. split; intros [? ?]; try discriminate; lia.
      + intros [= <- <- <- <-]. exists []. split; [constructor|]. split; [reflexivity|]. split; [exact E|]. intuition congruence.
  Qed.
  Lemma dec_digits_inv s : forall (x : T) nd ex x' nd' ex' r, dec_digits s x nd ex = (x', nd', ex', r) ->
    exists ds, all_digits ds /\ s = digits_text ds ++ r /\ stops r /\ (nd' = 0%nat <-> nd = 0%nat /\ ds = []).
  Proof.
    induction s as [|c s IH]; intros x nd ex x' nd' ex' r.
    - cbn. intros [= <- <- <- <-]. exists []. repeat split; try constructor; try tauto; intuition congruence.
    - cbn [dec_digits]. destruct (digit c) as [z|] eqn:E.
      + destruct (digit_inv c z E) as (d & Hd & -> & ->). unfold max_digits. destruct (Nat.ltb_spec nd 17) as [l|l]; intros H; apply IH in H; destruct H as (ds & H1 & H2 & H3 & H4).
        * exists (d :: ds). split; [constructor; assumption|]. split; [cbn; rewrite H2; reflexivity|]. split; [exact H3|]. rewrite H4. split; intros [? ?]; try discriminate; lia.
        * exists (d :: ds). split; [constructor; assumption|]. split; [cbn; rewrite H2; reflexivity|]. split; [exact H3|]. rewrite H4. split; intros [? ?]; try discriminate; lia.
      + intros [= <- <- <- <-]. exists []. split; [constructor|]. split; [reflexivity|]. split; [exact E|]. intuition congruence.
  Qed.
  Lemma exp_digits_inv s : forall n nd n' nd' r, (nd <= 17)%nat -> exp_digits s n nd = (n', nd', r) ->
    exists ds, all_digits ds /\ s = digits_text ds ++ r /\ nd' = (nd + List.length ds)%nat /\ (nd' <= 17)%nat.
  Proof.
    induction s as [|c s IH]; intros n nd n' nd' r Hn.
    - cbn. intros [= <- <- <-]. exists []. repeat split; [constructor|cbn; lia|exact Hn].
    - cbn [exp_digits]. destruct (digit c) as [z|] eqn:E.
      + destruct (digit_inv c z E) as (d & Hd & -> & ->). unfold max_digits. destruct (Nat.ltb_spec nd 17) as [l|l].
        * intros H. apply IH in H; [|lia]. destruct H as (ds & H1 & H2 & H3 & H4). exists (d :: ds). split; [constructor; assumption|]. split; [cbn; rewrite H2; reflexivity|]. cbn [List.length]. lia.
        * intros [= <- <- <-]. exists []. repeat split; [constructor|cbn; lia|exact Hn].
      + intros [= <- <- <-]. exists []. repeat split; [constructor|cbn; lia|exact Hn].
  Qed.
  Lemma sign_inv s neg t : sign s = (neg, t) -> exists sg, s = sgn_text sg ++ t /\ neg = match sg with Minus => true | _ => false end.
  Proof.
    unfold sign. destruct s as [|c s]; [intros [= <- <-]; exists NoSign; split; reflexivity|].
    destruct (ceqb c "-") eqn:E1; [intros [= <- <-]; exists Minus; apply Ascii.eqb_eq in E1; subst c; split; reflexivity|].
    destruct (ceqb c "+") eqn:E2; [intros [= <- <-]; exists Plus; apply Ascii.eqb_eq in E2; subst c; split; reflexivity|].
    intros [= <- <-]; exists NoSign; split; reflexivity.
  Qed.

  Theorem xstrtod_inv s v b : xstrtod s = Some (v, b) -> exists n, spells s n /\ b = is_integer n.
  Proof.
    unfold xstrtod. destruct (skip_inv s) as (w & Hw & Hs & _). destruct (sign (skip_blanks s)) as [neg s1] eqn:E1. destruct (sign_inv _ _ _ E1) as (sg & Hsg & Hneg).
    destruct (int_digits s1 zero 0 0%Z) as [[[x1 nd1] ex1] s2] eqn:E2. destruct (int_digits_inv _ _ _ _ _ _ _ _ E2) as (di & Hdi & Hi & Si & Ni).
    destruct (match s2 with String c t => if ceqb c "." then (dec_digits t x1 nd1 ex1, false) else (x1, nd1, ex1, s2, true) | "" => (x1, nd1, ex1, s2, true) end) as [[[[x2 nd2] ex2] s3] int1] eqn:E3.
    assert (F : exists fr, s2 = (match fr with Some f => "." ++ digits_text f | None => "" end) ++ s3 /\ all_digits (match fr with Some f => f | None => [] end) /\
              (nd2 = 0%nat <-> di = [] /\ (match fr with Some f => f | None => [] end) = []) /\ int1 = match fr with None => true | Some _ => false end).
    { destruct s2 as [|c t]; [injection E3; intros; subst; exists None; repeat split; try constructor; intuition congruence|].
      destruct (ceqb c ".") eqn:Ec.
      - apply Ascii.eqb_eq in Ec. subst c. destruct (dec_digits t x1 nd1 ex1) as [[[y1 y2] y3] y4] eqn:E4. injection E3; intros; subst.
        destruct (dec_digits_inv _ _ _ _ _ _ _ _ E4) as (f & Hf & Hft & _ & Nf). exists (Some f). split; [cbn; rewrite Hft; reflexivity|]. split; [exact Hf|]. split; [|reflexivity]. rewrite Nf, Ni. intuition congruence.
      - injection E3; intros; subst. exists None. repeat split; try constructor; intuition congruence. }
    clear E3. destruct F as (fr & Hfr & Hdf & Nf & ->). cbv zeta. destruct (Nat.eqb_spec nd2 0) as [C|C]; [discriminate|].
    destruct (match s3 with String c t => _ | "" => _ end) as [[[ex3 is_int] s4]|] eqn:E5; [|discriminate].
    assert (G : exists ep, s3 = (match ep with Some (cap, s, ds) => (if cap : bool then "E" else "e") ++ sgn_text s ++ digits_text ds | None => "" end) ++ s4 /\
              match ep with Some (_, _, ds) => all_digits ds /\ (1 <= List.length ds <= 17)%nat | None => True end /\
              is_int = match fr, ep with None, None => true | _, _ => false end).
    { destruct s3 as [|c t]; [injection E5; intros; subst; exists None; repeat split; destruct fr; reflexivity|].
      destruct (ceqb c "e" || ceqb c "E") eqn:Ec.
      - destruct (sign t) as [eneg t1] eqn:E6. destruct (sign_inv _ _ _ E6) as (es & Hes & _).
        destruct (exp_digits t1 0%Z 0) as [[m k] t2] eqn:E7. destruct (exp_digits_inv _ _ _ _ _ _ (Nat.le_0_l 17) E7) as (de & Hde & Het & Hk & Hk2).
        destruct (Nat.eqb_spec k 0) as [K|K]; [discriminate|]. injection E5; intros; subst s4 is_int. cbn in Hk.
        assert (X : exists cap : bool, c = if cap then "E"%char else "e"%char).
        { apply orb_true_iff in Ec. destruct Ec as [Ec|Ec]; apply Ascii.eqb_eq in Ec; subst c; [exists false|exists true]; reflexivity. }
        destruct X as (cap & ->). exists (Some (cap, es, de)). split.
        { rewrite Hes, Het. destruct cap; cbn [append]; rewrite !sapp_assoc; reflexivity. }
        split; [split; [exact Hde|lia]|destruct fr; reflexivity].
      - injection E5; intros; subst. exists None. repeat split; destruct fr; reflexivity. }
    destruct G as (ep & Hep & Hde & ->). destruct (scale _ _) as [v'|]; [|discriminate]. destruct (skip_blanks s4) as [|? ?] eqn:E8; [|discriminate].
    intros [= _ <-]. apply skip_white_nil in E8.
    exists {| n_sign := sg; n_int := di; n_frac := fr; n_exp := ep |}. split; [|reflexivity]. split.
    - unfold well_formed, frac_digits. cbn [n_int n_frac n_exp]. split; [exact Hdi|]. split; [exact Hdf|]. split; [|destruct ep as [[[? ?] ?]|]; [exact Hde|exact I]].
      intros Q. apply C. apply Nf. apply app_eq_nil in Q. exact Q.
    - exists w, s4. split; [exact Hw|]. split; [exact E8|]. unfold numeral_text. cbn [n_sign n_int n_frac n_exp].
      rewrite Hs at 1. rewrite Hsg, Hi, Hfr, Hep, !sapp_assoc. reflexivity.
  Qed.

  (** the integer of an integer text *)
  Lemma int_value_run ds : forall b a, all_digits ds -> stops b -> int_value (digits_text ds ++ b) a = fold_left (fun a d => 10 * a + Z.of_nat d)%Z ds a.
  Proof.
    induction ds as [|d ds IH]; intros b a Hd Hb.
    - cbn [digits_text append fold_left]. destruct b as [|c b]; [reflexivity|]. cbn [stops] in Hb. cbn [int_value]. rewrite Hb. reflexivity.
    - cbn [digits_text append int_value fold_left]. rewrite digit_digit by exact (Forall_inv Hd). apply IH; [exact (Forall_inv_tail Hd)|exact Hb].
  Qed.
  Lemma to_int_spelled t n : spells t n -> is_integer n = true -> to_int t = (sgn_Z (n_sign n) * mantissa n)%Z.
  Proof.
    intros ((W1 & W2 & W3 & W4) & b1 & b2 & H1 & H2 & ->) I. unfold is_integer in I. destruct (n_frac n) eqn:Ef; [discriminate|]. destruct (n_exp n) eqn:Ee; [discriminate|].
    unfold to_int. rewrite skip_app by exact H1. unfold numeral_text. rewrite Ef, Ee. cbn [append]. rewrite sapp_nil, sapp_assoc.
    unfold mantissa, frac_digits in *. rewrite Ef in *. rewrite app_nil_r in *.
    assert (So : solid (sgn_text (n_sign n) ++ (digits_text (n_int n) ++ b2))).
    { destruct (n_sign n); [|reflexivity|reflexivity]. cbn [sgn_text append]. destruct (n_int n) as [|d ds] eqn:Ei; [congruence|].
      cbn [digits_text append solid]. pose proof (Forall_inv W1) as Hd. cbv beta in Hd. unfold blank. rewrite digit_char_code by exact Hd.
      apply orb_false_iff. split; [apply andb_false_iff; right; apply Nat.leb_gt; lia|apply Nat.eqb_neq; lia]. }
    rewrite skip_solid by exact So. rewrite sign_digits; [|exact W1|apply white_stops; exact H2|left; exact W3].
    rewrite int_value_run by (try exact W1; apply white_stops; exact H2). fold (digits_value (n_int n)). destruct (n_sign n); cbn [sgn_Z]; lia.
  Qed.
End Converse.
