(** * The reader on documents in any spelling *)
From Coq Require Import List Bool String Ascii Arith Lia ZArith QArith.
From Verif Require Import Base Dict QuakeML_model Spec_QuakeML QuakeML_proofs Props_QuakeML Spec_Export Spec_Xml Xml_model Xml_proofs Recut_proofs Props_Xml Spec_Spelling.
Import ListNotations.
Open Scope string_scope.

(** ** references *)
Lemma denotes_nonempty base s v : denotes base s v -> s <> "".
Proof. intros H. destruct H as [|s v c d H]; [discriminate|destruct s; discriminate]. Qed.
Lemma digit_dec c d : In (c, d) digits -> (d < 10)%Z -> dec_digit c = Some d /\ Ascii.eqb c "x" = false /\ illegal c = false /\ Ascii.eqb c SEMI = false.
Proof. intros H Hd. cbn in H. repeat (destruct H as [[= <- <-]|H]; [first [exfalso; lia|repeat split; reflexivity]|]). destruct H. Qed.
Lemma digit_hex c d : In (c, d) digits -> hex_digit c = Some d /\ illegal c = false /\ Ascii.eqb c SEMI = false.
Proof. intros H. cbn in H. repeat (destruct H as [[= <- <-]|H]; [repeat split; reflexivity|]). destruct H. Qed.
Lemma ref_number_app f b s t : forall acc, (forall x y c, s = x ++ String c y -> f c <> None) -> ref_number f b (s ++ t) acc = ref_number f b t (ref_number f b s acc).
Proof.
  induction s as [|c s IH]; intros acc H; [reflexivity|]. cbn [append ref_number]. destruct (f c) eqn:E; [|destruct (H "" s c eq_refl E)]. apply IH. intros x y d ->. apply (H (String c x) y d). reflexivity.
Qed.
Section Digits.
  Context (f : ascii -> option Z) (base : Z).
  Hypothesis Hf : forall c d, In (c, d) digits -> (d < base)%Z -> f c = Some d.
  Lemma denotes_digits s v : denotes base s v -> forall x y c, s = x ++ String c y -> f c <> None.
  Proof.
    intros H. induction H as [c d H1 H2|s v c d H IH H1 H2]; intros x y e E.
    - destruct x as [|x0 x]; [injection E as <- _; rewrite (Hf _ _ H1 H2); discriminate|]. destruct x; discriminate.
    - assert (Q : forall s x, s ++ String c "" = x ++ String e y -> (e = c /\ y = "") \/ exists y', s = x ++ String e y').
      { clear. induction s as [|a s IH]; intros x E.
        - destruct x as [|b x]; [injection E as <- <-; left; auto|]. destruct x; discriminate.
        - destruct x as [|b x]; [injection E as <- E; right; exists s; reflexivity|]. injection E as <- E. destruct (IH _ E) as [Q|(y' & ->)]; [left; exact Q|right; exists y'; reflexivity]. }
      destruct (Q _ _ E) as [[-> _]|(y' & ->)]; [rewrite (Hf _ _ H1 H2); discriminate|]. apply (IH x y' e). reflexivity.
  Qed.
  Lemma denotes_number s v : denotes base s v -> ref_number f base s 0 = v.
  Proof.
    intros H. induction H as [c d H1 H2|s v c d H IH H1 H2]; [cbn [ref_number]; rewrite (Hf _ _ H1 H2); lia|].
    rewrite ref_number_app, IH by (eapply denotes_digits; exact H). cbn [ref_number]. rewrite (Hf _ _ H1 H2). reflexivity.
  Qed.
End Digits.
Lemma allowed_number c : allowed c -> char_number (Z.of_nat (code c)) = RChar c.
Proof.
  intros H. unfold char_number. assert (B : (code c < 256)%nat) by apply nat_ascii_bounded.
  assert (E : ((Z.of_nat (code c) =? 9) || (Z.of_nat (code c) =? 10) || (Z.of_nat (code c) =? 13) || (32 <=? Z.of_nat (code c)) && (Z.of_nat (code c) <? 256))%Z = true).
  { destruct H as [H|[H|[H|H]]]; [rewrite H; reflexivity|rewrite H; reflexivity|rewrite H; reflexivity|]. apply orb_true_iff. right. apply andb_true_iff. split; [apply Z.leb_le|apply Z.ltb_lt]; lia. }
  rewrite E, Nat2Z.id. unfold code. rewrite ascii_nat_embedding. reflexivity.
Qed.

Section Read.
  Variable cut : list sax -> string -> list string.
  Notation run := (Xml_model.run cut).
  Notation step := (Xml_model.step cut).
  Notation flush := (Xml_model.flush cut).
  Notation flushed := (Xml_proofs.flushed cut).

  (** a reference, after its [&], in any place: [at_ r] is the state in which [r] has been read *)
  Lemma run_digits (at_ : string -> xst) (f : ascii -> option Z) base pre s v :
    (forall c d, In (c, d) digits -> (d < base)%Z -> f c = Some d) ->
    (forall r c d, (r = "" \/ exists v, denotes base r v) -> In (c, d) digits -> (d < base)%Z -> step (at_ (pre ++ r)) c = Go (at_ (pre ++ r ++ String c ""))) ->
    denotes base s v -> run (at_ pre) s = Go (at_ (pre ++ s)).
  Proof.
    intros Hf Hs H. induction H as [c d H1 H2|s v c d H IH H1 H2].
    - cbn [Xml_model.run]. specialize (Hs "" c d (or_introl eq_refl) H1 H2). rewrite app_nil_s in Hs. rewrite Hs. reflexivity.
    - rewrite run_app_s, IH. cbn [Xml_model.run]. rewrite (Hs s c d (or_intror (ex_intro _ v H)) H1 H2). reflexivity.
  Qed.
  Lemma run_refers (at_ : string -> xst) (done : ascii -> xst) c x :
    (forall r e, illegal e = false -> Ascii.eqb e SEMI = false -> ref_next r e = true -> step (at_ r) e = Go (at_ (snoc r e))) ->
    (forall r y, reference r = RChar y -> step (at_ r) ";" = Go (done y)) ->
    refers c x -> exists r, x = String "&" r /\ run (at_ "") r = Go (done c).
  Proof.
    intros Hn Hd H. destruct H as [c r H|c s Ha H|c s Ha H].
    - exists (r ++ ";"). split; [reflexivity|]. cbn in H.
      repeat (destruct H as [[= <- <-]|H]; [cbn [append Xml_model.run]; repeat (rewrite Hn by reflexivity); cbn [snoc append]; erewrite Hd by reflexivity; reflexivity|]). destruct H.
    - exists (String "#" (s ++ ";")). split; [reflexivity|]. cbn [Xml_model.run]. rewrite Hn by reflexivity. change (snoc "" "#") with "#". rewrite run_app_s.
      rewrite (run_digits at_ dec_digit 10 "#" s (Z.of_nat (code c))); [|intros e d H1 H2; apply (digit_dec e d H1 H2)| |exact H].
      + cbn [Xml_model.run]. rewrite (Hd _ c); [reflexivity|]. destruct s as [|e s]; [destruct (denotes_nonempty _ _ _ H eq_refl)|]. unfold reference. cbn [append]. change (Ascii.eqb "#" HASH) with true. cbv iota.
        assert (Ex : Ascii.eqb e "x" = false).
        { pose proof (denotes_digits dec_digit 10 (fun e d H1 H2 => proj1 (digit_dec e d H1 H2)) _ _ H "" s e eq_refl) as D. apply Ascii.eqb_neq. intros ->. apply D. reflexivity. }
        rewrite Ex, (denotes_number dec_digit 10 (fun e d H1 H2 => proj1 (digit_dec e d H1 H2)) _ _ H). apply allowed_number. exact Ha.
      + intros r e d Hr H1 H2. destruct (digit_dec e d H1 H2) as (E1 & E2 & E3 & E4). rewrite Hn; [unfold snoc; rewrite app_assoc_s; reflexivity|exact E3|exact E4|].
        cbn [append ref_next]. change (Ascii.eqb "#" HASH) with true. cbv iota. rewrite E1, E2. destruct r as [|x r]; [reflexivity|].
        assert (Ex : Ascii.eqb x "x" = false).
        { destruct Hr as [Hr|(v & Hr)]; [discriminate|]. pose proof (denotes_digits dec_digit 10 (fun e d H1 H2 => proj1 (digit_dec e d H1 H2)) _ _ Hr "" r x eq_refl) as D. apply Ascii.eqb_neq. intros ->. apply D. reflexivity. }
        rewrite Ex. reflexivity.
    - exists (String "#" (String "x" (s ++ ";"))). split; [reflexivity|]. cbn [Xml_model.run]. rewrite Hn by reflexivity. change (snoc "" "#") with "#". rewrite Hn by reflexivity. change (snoc "#" "x") with "#x". rewrite run_app_s.
      rewrite (run_digits at_ hex_digit 16 "#x" s (Z.of_nat (code c))); [|intros e d H1 H2; apply (digit_hex e d H1)| |exact H].
      + cbn [Xml_model.run]. rewrite (Hd _ c); [reflexivity|]. destruct s as [|e s]; [destruct (denotes_nonempty _ _ _ H eq_refl)|]. unfold reference. cbn [append]. change (Ascii.eqb "#" HASH) with true. cbv iota. change (Ascii.eqb "x" "x") with true. cbv iota.
        rewrite (denotes_number hex_digit 16 (fun e d H1 H2 => proj1 (digit_hex e d H1)) _ _ H). apply allowed_number. exact Ha.
      + intros r e d Hr H1 H2. destruct (digit_hex e d H1) as (E1 & E3 & E4). rewrite Hn; [unfold snoc; rewrite app_assoc_s; reflexivity|exact E3|exact E4|].
        cbn [append ref_next]. change (Ascii.eqb "#" HASH) with true. cbv iota. change (Ascii.eqb "x" "x") with true. cbv iota. rewrite E1. reflexivity.
  Qed.
  Lemma run_ref_text c x k w m open root o : refers c x -> run (mkx (Text k) w (m :: open) root o) x = Go (mkx (Text 0) (snoc w c) (m :: open) root o).
  Proof.
    intros H. destruct (run_refers (fun r => mkx (Ref r) w (m :: open) root o) (fun y => mkx (Text 0) (snoc w y) (m :: open) root o) c x) as (r & -> & E); [| |exact H|].
    - intros r e H1 H2 H3. unfold Xml_model.step. rewrite H1. cbn [x_mode]. rewrite H2, H3. reflexivity.
    - intros r y H1. unfold Xml_model.step. change (illegal ";") with false. cbn [x_mode]. change (Ascii.eqb ";" SEMI) with true. cbv iota. rewrite H1. reflexivity.
    - cbn [Xml_model.run]. change (step (mkx (Text k) w (m :: open) root o) "&") with (Go (mkx (Ref "") w (m :: open) root o)). exact E.
  Qed.
  Lemma run_ref_value c x n a k q v w open root o : q = QUOT \/ q = APOS -> refers c x -> run (mkx (AVal n a k q v) w open root o) x = Go (mkx (AVal n a k q (snoc v c)) w open root o).
  Proof.
    intros Hq H. destruct (run_refers (fun r => mkx (ARef n a k q v r) w open root o) (fun y => mkx (AVal n a k q (snoc v y)) w open root o) c x) as (r & -> & E); [| |exact H|].
    - intros r e H1 H2 H3. unfold Xml_model.step. rewrite H1. cbn [x_mode]. rewrite H2, H3. reflexivity.
    - intros r y H1. unfold Xml_model.step. change (illegal ";") with false. cbn [x_mode]. change (Ascii.eqb ";" SEMI) with true. cbv iota. rewrite H1. reflexivity.
    - cbn [Xml_model.run]. replace (step (mkx (AVal n a k q v) w open root o) "&") with (Go (mkx (ARef n a k q v "") w open root o)) by (destruct Hq as [-> | ->]; reflexivity). exact E.
  Qed.

  (** ** comments *)
  Lemma printable_ok c : printable c = true -> illegal c = false.
  Proof.
    intros H. pose proof (by_cases (fun c => implb (printable c) (negb (illegal c))) eq_refl c) as K. cbv beta in K. rewrite H in K. apply negb_true_iff. exact K.
  Qed.
  Lemma run_comment_body y : forall d w open root o, all printable y = true -> ~ occurs "--" ((if d : bool then "-" else "") ++ y ++ "-") ->
    exists d', run (mkx (if d then Comment1 else Comment) w open root o) y = Go (mkx (if d' : bool then Comment1 else Comment) w open root o) /\ d' = false.
  Proof.
    induction y as [|c y IH]; intros d w open root o Hp Ho.
    - destruct d; [exfalso; apply Ho; exists "", ""; reflexivity|]. exists false. split; reflexivity.
    - cbn [all] in Hp. apply andb_true_iff in Hp. destruct Hp as [Hc Hp]. apply printable_ok in Hc. cbn [Xml_model.run]. destruct (Ascii.eqb_spec c DASH) as [->|N].
      + destruct d; [exfalso; apply Ho; exists "", (y ++ "-"); reflexivity|]. change (step (mkx Comment w open root o) DASH) with (Go (mkx Comment1 w open root o)). cbv iota beta.
        destruct (IH true w open root o Hp) as (d' & E & ->); [exact Ho|]. exists false. split; [exact E|reflexivity].
      + assert (Ho' : ~ occurs "--" (y ++ "-")). { intros K. apply Ho. apply occurs_suffix. apply (occurs_suffix _ (String c "") (y ++ "-")). exact K. }
        assert (E : step (mkx (if d then Comment1 else Comment) w open root o) c = Go (mkx Comment w open root o)).
        { unfold Xml_model.step. rewrite Hc. destruct d; cbn [x_mode]; rewrite (proj2 (Ascii.eqb_neq c DASH) N); reflexivity. }
        rewrite E. destruct (IH false w open root o Hp Ho') as (d' & E' & ->). exists false. split; [exact E'|reflexivity].
  Qed.
  Lemma run_comment_from x w open root o : comment x -> exists y, x = "<!" ++ y /\ run (mkx Bang w open root o) y = Go (mkx (Text 0) w open root o).
  Proof.
    intros (y & -> & Hp & Ho). exists ("--" ++ y ++ "-->"). split; [reflexivity|]. change ("--" ++ ?z) with (String "-" (String "-" z)). cbn [Xml_model.run].
    change (step (mkx Bang w open root o) "-") with (Go (mkx Bang1 w open root o)). cbv iota beta. change (step (mkx Bang1 w open root o) "-") with (Go (mkx Comment w open root o)). cbv iota beta.
    rewrite run_app_s. destruct (run_comment_body y false w open root o Hp Ho) as (d & E & ->). rewrite E. reflexivity.
  Qed.
  Lemma run_comment x k w open root o : comment x -> run (mkx (Text k) w open root o) x = Go (mkx (Text 0) w open root o).
  Proof. intros H. destruct (run_comment_from x w open root o H) as (y & -> & E). exact E. Qed.

  (** ** processing instructions *)
  Lemma is_xml_word n : ~ is_xml n -> xml_word n = false.
  Proof.
    intros H. destruct n as [|a [|b [|c [|]]]]; try reflexivity. cbn [xml_word]. destruct ((Ascii.eqb a "x" || Ascii.eqb a "X") && (Ascii.eqb b "m" || Ascii.eqb b "M") && (Ascii.eqb c "l" || Ascii.eqb c "L")) eqn:E; [|reflexivity].
    exfalso. apply H. rewrite !andb_true_iff, !orb_true_iff, !Ascii.eqb_eq in E. destruct E as [[[-> | ->] [-> | ->]] [-> | ->]]; cbn; tauto.
  Qed.
  Lemma run_pi_name t : forall n s, x_mode s = Pi n -> n <> "" -> all name_letter t = true -> run s t = Go (mkx (Pi (n ++ t)) (x_pend s) (x_open s) (x_root s) (x_out s)).
  Proof.
    induction t as [|c t IH]; intros n s Hm Hn Ht; [cbn; rewrite app_nil_s; destruct s; cbn in *; congruence|]. cbn [all] in Ht. apply andb_true_iff in Ht. destruct Ht as [Hc Ht].
    destruct (name_letter_ok c Hc) as (E1 & E2 & E3). cbn [Xml_model.run]. unfold Xml_model.step. rewrite E2, Hm. unfold in_pi. rewrite (proj2 (String.eqb_neq n "") Hn), E3. unfold goto. rewrite (IH (snoc n c)); [|reflexivity|intros K; pose proof (snoc_nonempty n c); rewrite K in *; discriminate|exact Ht]. cbn [x_pend x_open x_root x_out]. rewrite snoc_app. reflexivity.
  Qed.
  Lemma run_pi_data y : forall q w open root o, all printable y = true -> ~ occurs "?>" ((if q : bool then "?" else "") ++ y) ->
    exists q', run (mkx (if q then PiQ else PiData) w open root o) y = Go (mkx (if q' : bool then PiQ else PiData) w open root o).
  Proof.
    induction y as [|c y IH]; intros q w open root o Hp Ho; [exists q; reflexivity|]. cbn [all] in Hp. apply andb_true_iff in Hp. destruct Hp as [Hc Hp]. apply printable_ok in Hc.
    assert (St : exists q1, step (mkx (if q then PiQ else PiData) w open root o) c = Go (mkx (if q1 : bool then PiQ else PiData) w open root o) /\ (q1 = true -> c = QM)).
    { unfold Xml_model.step. rewrite Hc. destruct q; cbn [x_mode].
      - destruct (Ascii.eqb_spec c GT) as [->|]; [exfalso; apply Ho; exists "", y; reflexivity|]. destruct (Ascii.eqb_spec c QM) as [->|]; [exists true|exists false]; (split; [reflexivity|congruence]).
      - destruct (Ascii.eqb_spec c QM) as [->|]; [exists true|exists false]; (split; [reflexivity|congruence]). }
    destruct St as (q1 & E & Hq). cbn [Xml_model.run]. rewrite E. apply IH; [exact Hp|]. intros K. apply Ho. apply occurs_suffix. destruct q1; [rewrite (Hq eq_refl); exact K|]. apply (occurs_suffix _ (String c "") y). exact K.
  Qed.
  Lemma run_instruction x k w open root o : instruction x -> run (mkx (Text k) w open root o) x = Go (mkx (Text 0) "" open root (app o (map Chars (flushed o w)))).
  Proof.
    intros (n & y & -> & Hn & Hx & Hp & Ho & Hy). destruct n as [|c n]; [discriminate|]. cbn [is_name] in Hn. apply andb_true_iff in Hn. destruct Hn as [Hc Hn]. destruct (letter_ok c Hc) as (E1 & E2 & E3 & E4 & E5 & E6 & E7 & E8 & E9).
    change ("<?" ++ ?z) with (String "<" (String "?" z)). cbn [Xml_model.run]. change (step (mkx (Text k) w open root o) "<") with (Go (mkx Lt w open root o)). cbv iota beta. change (step (mkx Lt w open root o) "?") with (Go (mkx (Pi "") w open root o)). cbv iota beta.
    cbn [append Xml_model.run]. replace (step (mkx (Pi "") w open root o) c) with (Go (mkx (Pi (String c "")) w open root o)).
    2:{ unfold Xml_model.step. rewrite E2. cbn [x_mode]. unfold in_pi. change ("" =? "") with true. cbv iota. rewrite E3. reflexivity. }
    rewrite run_app_s, (run_pi_name n (String c "")); [|reflexivity|discriminate|exact Hn]. cbn [x_pend x_open x_root x_out append]. rewrite run_app_s. pose proof (is_xml_word _ Hx) as Xw.
    destruct Hy as [->|(b & z & -> & Hb)].
    - cbn [Xml_model.run append]. replace (step (mkx (Pi (String c n)) w open root o) "?") with (Go (mkx PiEnd w open root o)).
      2:{ unfold Xml_model.step. change (illegal "?") with false. cbn [x_mode]. unfold in_pi. change (String c n =? "") with false. cbv iota. change (name_char "?") with false. cbn [orb]. rewrite Xw. reflexivity. }
      unfold Xml_model.step. change (illegal ">") with false. cbn [x_mode]. change (Ascii.eqb ">" GT) with true. cbv iota. unfold pi_tag. rewrite flush_flushed. reflexivity.
    - cbn [all] in Hp. apply andb_true_iff in Hp. destruct Hp as [_ Hp]. unfold blank in Hb. cbn [all] in Hb. apply andb_true_iff in Hb. destruct Hb as [Hb _]. destruct (blank_char b Hb) as (B1 & B2 & B3 & B4).
      assert (B5 : name_char b = false).
      { pose proof (by_cases (fun c => implb (xspace c) (negb (name_char c))) eq_refl b) as K. cbv beta in K. rewrite B4 in K. apply negb_true_iff. exact K. }
      cbn [append Xml_model.run]. replace (step (mkx (Pi (String c n)) w open root o) b) with (Go (mkx PiData w open root o)).
      2:{ unfold Xml_model.step. rewrite B2. cbn [x_mode]. unfold in_pi. change (String c n =? "") with false. cbv iota. rewrite B5. cbn [orb]. rewrite Xw, B4. reflexivity. }
      destruct (run_pi_data z false w open root o Hp) as (q' & E). { intros K. apply Ho. apply (occurs_suffix _ (String b "") z). exact K. }
      cbv iota in E. rewrite E. cbn [Xml_model.run]. replace (step (mkx (if q' then PiQ else PiData) w open root o) "?") with (Go (mkx PiQ w open root o)) by (destruct q'; reflexivity).
      unfold Xml_model.step. change (illegal ">") with false. cbn [x_mode]. change (Ascii.eqb ">" GT) with true. cbv iota. unfold pi_tag. rewrite flush_flushed. reflexivity.
  Qed.

  (** ** CDATA sections *)
  Lemma run_cdata_body y : forall k w m open root o, (k <= 2)%nat -> all printable y = true -> ~ occurs "]]>" (brackets k ++ y) ->
    exists k' w', (k' <= 2)%nat /\ run (mkx (CData k) w (m :: open) root o) y = Go (mkx (CData k') w' (m :: open) root o) /\ w' ++ brackets k' = w ++ brackets k ++ y.
  Proof.
    induction y as [|c y IH]; intros k w m open root o Hk Hp Ho; [exists k, w; split; [exact Hk|split; [reflexivity|rewrite app_nil_s; reflexivity]]|].
    cbn [all] in Hp. apply andb_true_iff in Hp. destruct Hp as [Hc Hp]. apply printable_ok in Hc. cbn [Xml_model.run]. unfold Xml_model.step at 1. rewrite Hc. cbn [x_mode]. unfold in_cdata. destruct (Ascii.eqb_spec c RB) as [->|N].
    - destruct (Nat.ltb_spec k 2) as [L|L].
      + unfold goto. cbn [x_pend x_open x_root x_out]. rewrite brackets_snoc in Ho. destruct (IH (S k) w m open root o L Hp Ho) as (k' & w' & A & B & C). exists k', w'. split; [exact A|]. split; [exact B|]. rewrite C. rewrite brackets_snoc. reflexivity.
      + assert (k = 2%nat) by lia. subst k. unfold add_text. cbn [x_pend x_open x_root x_out].
        destruct (IH 2%nat (w ++ "]") m open root o (le_n 2) Hp) as (k' & w' & A & B & C).
        { intros K. apply Ho. apply (occurs_suffix _ "]" (brackets 2 ++ y)). exact K. }
        exists k', w'. split; [exact A|]. split; [exact B|]. rewrite C. rewrite app_assoc_s. reflexivity.
    - destruct (Ascii.eqb c GT && (2 <=? k)%nat) eqn:F.
      + exfalso. apply andb_true_iff in F. destruct F as [F1 F2]. apply Ascii.eqb_eq in F1. apply Nat.leb_le in F2. assert (k = 2%nat) by lia. subst. apply Ho. exists "", y. reflexivity.
      + unfold add_text. cbn [x_pend x_open x_root x_out]. set (pre := match k with 0 => "" | 1 => "]" | _ => "]]" end%nat).
        assert (Epre : pre = brackets k) by (destruct k as [|[|[|k]]]; try reflexivity; lia). rewrite Epre.
        destruct (IH 0%nat (w ++ brackets k ++ String c "") m open root o ltac:(lia) Hp) as (k' & w' & A & B & C).
        { intros K. apply Ho. apply occurs_suffix. apply (occurs_suffix _ (String c "") y). exact K. }
        exists k', w'. split; [exact A|]. split; [exact B|]. rewrite C. cbn [brackets append]. rewrite !app_assoc_s. reflexivity.
  Qed.
  Lemma app_tail_inv a b c : a ++ c = b ++ c -> a = b.
  Proof.
    revert b. induction a as [|x a IH]; intros b H.
    - destruct b as [|y b]; [reflexivity|]. exfalso. apply (f_equal String.length) in H. cbn [append String.length] in H. rewrite length_app_s in H. lia.
    - destruct b as [|y b]; [exfalso; apply (f_equal String.length) in H; cbn [append String.length] in H; rewrite length_app_s in H; lia|]. injection H as <- H. f_equal. apply IH. exact H.
  Qed.
  Lemma run_cdata x k p m open root o : all printable x = true -> ~ occurs "]]>" x -> run (mkx (Text k) p (m :: open) root o) ("<![CDATA[" ++ x ++ "]]>") = Go (mkx (Text 0) (p ++ x) (m :: open) root o).
  Proof.
    intros Hp Ho. rewrite run_app_s. change (run (mkx (Text k) p (m :: open) root o) "<![CDATA[") with (Go (mkx (CData 0) p (m :: open) root o)). cbv iota beta. rewrite run_app_s.
    destruct (run_cdata_body x 0 p m open root o ltac:(lia) Hp Ho) as (k' & w' & Hk & E & F). rewrite E. cbn [brackets append] in F. rewrite <- F.
    destruct k' as [|[|[|k']]]; [| | |lia].
    - cbn [brackets]. rewrite app_nil_s. reflexivity.
    - reflexivity.
    - change (brackets 2) with ("]" ++ "]"). rewrite <- app_assoc_s. reflexivity.
  Qed.
  (** ** texts *)
  Lemma run_spelled pi k s w : spelled pi k s w -> forall p m open root o, exists k' p' cs,
    run (mkx (Text k) p (m :: open) root o) w = Go (mkx (Text k') p' (m :: open) root (app o (map Chars cs))) /\ (forall cut_join : (forall o s, join (cut o s) = s), join cs ++ p' = p ++ s) /\ (pi = false -> cs = []).
  Proof.
    intros H. induction H as [k|k c s w Hc Hg H IH|k c r s w Hr H IH|k x s w Hx H IH|k x s w Hp Ho H IH|k x s w Hpi Hx H IH]; intros p m open root o.
    - exists k, p, []. split; [cbn; rewrite app_nil_r; reflexivity|]. split; [intros _; rewrite app_nil_s; reflexivity|reflexivity].
    - destruct (IH (snoc p c) m open root o) as (k' & p' & cs & E & F & G). exists k', p', cs. split; [|split; [intros J; rewrite (F J), snoc_app; reflexivity|exact G]].
      destruct (text_char_ok c Hc) as (_ & E2 & E3 & E4). cbn [Xml_model.run].
      assert (St : step (mkx (Text k) p (m :: open) root o) c = Go (mkx (Text (if Ascii.eqb c "]" then S k else 0%nat)) (snoc p c) (m :: open) root o)).
      { unfold Xml_model.step. rewrite E2. cbn [x_mode]. unfold in_text. rewrite E3, E4. cbn [x_open]. destruct (Ascii.eqb c GT && (2 <=? k)%nat) eqn:Z; [|reflexivity].
        apply andb_true_iff in Z. destruct Z as [Z1 Z2]. apply Ascii.eqb_eq in Z1. apply Nat.leb_le in Z2. specialize (Hg Z1). lia. }
      rewrite St. exact E.
    - destruct (IH (snoc p c) m open root o) as (k' & p' & cs & E & F & G). exists k', p', cs. split; [|split; [intros J; rewrite (F J), snoc_app; reflexivity|exact G]].
      rewrite run_app_s, (run_ref_text c r) by exact Hr. exact E.
    - destruct (IH p m open root o) as (k' & p' & cs & E & F & G). exists k', p', cs. split; [|split; [exact F|exact G]]. rewrite run_app_s, (run_comment x) by exact Hx. exact E.
    - destruct (IH (p ++ x) m open root o) as (k' & p' & cs & E & F & G). exists k', p', cs. split; [|split; [intros J; rewrite (F J), app_assoc_s; reflexivity|exact G]].
      replace ("<![CDATA[" ++ x ++ "]]>" ++ w) with (("<![CDATA[" ++ x ++ "]]>") ++ w) by (rewrite !app_assoc_s; reflexivity). rewrite run_app_s, run_cdata by assumption. exact E.
    - destruct (IH "" m open root (app o (map Chars (flushed o p)))) as (k' & p' & cs & E & F & G). exists k', p', (app (flushed o p) cs). split; [|split; [|congruence]].
      + rewrite run_app_s, (run_instruction x) by exact Hx. rewrite E, map_app, app_assoc. reflexivity.
      + intros J. rewrite join_app, app_assoc_s, (F J). cbn [append]. rewrite flushed_join by exact J. reflexivity.
  Qed.

  (** ** tags *)
  Lemma run_value_spelled q s x : (q = quote \/ q = "'"%char) -> value_spelled q s x -> forall n a k v w open root o, run (mkx (AVal n a k q v) w open root o) x = Go (mkx (AVal n a k q (v ++ s)) w open root o).
  Proof.
    intros Hq H. induction H as [|c s x H1 H2 H3 H IH|c s x H1 H IH|c r s x Hr H IH]; intros n a k v w open root o.
    - cbn. rewrite app_nil_s. reflexivity.
    - destruct (text_char_ok c H1) as (_ & E2 & E3 & E4). cbn [Xml_model.run].
      assert (St : step (mkx (AVal n a k q v) w open root o) c = Go (mkx (AVal n a k q (snoc v c)) w open root o)).
      { unfold Xml_model.step. rewrite E2. cbn [x_mode]. rewrite (proj2 (Ascii.eqb_neq c q) H3), E3, E4.
        assert (X : (if xspace c then " "%char else c) = c).
        { pose proof (by_cases (fun c => implb (xspace c && (32 <=? code c)%nat) (Ascii.eqb c " ")) eq_refl c) as K. cbv beta in K. destruct (xspace c); [|reflexivity]. rewrite (proj2 (Nat.leb_le _ _) H2) in K. apply Ascii.eqb_eq in K. auto. }
        rewrite X. reflexivity. }
      rewrite St, IH, snoc_app. reflexivity.
    - cbn [Xml_model.run].
      assert (St : step (mkx (AVal n a k q v) w open root o) c = Go (mkx (AVal n a k q (snoc v " ")) w open root o)).
      { assert (C : c = ascii_of_nat 9 \/ c = ascii_of_nat 10) by (rewrite <- (ascii_nat_embedding c); unfold code in H1; destruct H1 as [-> | ->]; auto). destruct Hq as [-> | ->], C as [-> | ->]; reflexivity. }
      rewrite St, IH, snoc_app. reflexivity.
    - rewrite run_app_s, (run_ref_value c r) by (try exact Hq; exact Hr). rewrite IH, snoc_app. reflexivity.
  Qed.
  (** white space in tags *)
  Lemma run_spaces (m1 m2 : mode) b w open root o :
    (forall c, xspace c = true -> illegal c = false -> step (mkx m1 w open root o) c = Go (mkx m2 w open root o)) ->
    (forall c, xspace c = true -> illegal c = false -> step (mkx m2 w open root o) c = Go (mkx m2 w open root o)) ->
    blank b -> run (mkx m1 w open root o) b = Go (mkx (if b =? "" then m1 else m2) w open root o).
  Proof.
    intros H1 H2 Hb. destruct b as [|c b]; [reflexivity|]. unfold blank in Hb. cbn [all] in Hb. apply andb_true_iff in Hb. destruct Hb as [Hc Hb]. destruct (blank_char c Hc) as (_ & E2 & _ & E4).
    cbn [Xml_model.run]. rewrite (H1 c E4 E2). change (String c b =? "") with false. cbv iota. clear c Hc E2 E4.
    induction b as [|c b IH]; [reflexivity|]. cbn [all] in Hb. apply andb_true_iff in Hb. destruct Hb as [Hc Hb]. destruct (blank_char c Hc) as (_ & E2 & _ & E4). cbn [Xml_model.run]. rewrite (H2 c E4 E2). apply IH. exact Hb.
  Qed.
  Lemma space_no_name c : xspace c = true -> name_char c = false /\ name_start c = false.
  Proof.
    intros H. pose proof (by_cases (fun c => implb (xspace c) (negb (name_char c) && negb (name_start c))) eq_refl c) as K. cbv beta in K. rewrite H in K. cbn [implb] in K. rewrite andb_true_iff, !negb_true_iff in K. exact K.
  Qed.
  Ltac one_space H1 H2 := unfold Xml_model.step; rewrite H2; cbn [x_mode]; rewrite ?(proj1 (space_no_name _ H1)), H1; reflexivity.
  Lemma run_attr_spelled n a kv x m w open root o : tag_at m n a -> dget a (fst kv) = None -> is_name (fst kv) = true -> attr_spelled kv x ->
    run (mkx m w open root o) x = Go (mkx (Tag n (app a [kv]) false) w open root o).
  Proof.
    intros Hm Hk Hn (b1 & b2 & b3 & q & v & N1 & B1 & B2 & B3 & Hq & Hv & ->). destruct kv as [k u]. cbn [fst snd] in *. destruct k as [|c k]; [discriminate|]. cbn [is_name] in Hn. apply andb_true_iff in Hn. destruct Hn as [Hc Hn]. destruct (letter_ok c Hc) as (E1 & E2 & E3 & E4 & E5 & E6 & E7 & E8 & E9).
    rewrite run_app_s, (run_spaces m (Tag n a true) b1); [|intros d D1 D2; destruct Hm as [[-> ->] | ->]; one_space D1 D2|intros d D1 D2; one_space D1 D2|exact B1].
    rewrite (proj2 (String.eqb_neq b1 "") N1). cbn [append Xml_model.run].
    assert (S1 : step (mkx (Tag n a true) w open root o) c = Go (mkx (AName n a (String c "")) w open root o)) by (unfold Xml_model.step; rewrite E2; cbn [x_mode]; rewrite E8, E9, E7, E3; reflexivity).
    rewrite S1, run_app_s, (run_aname cut k n a (String c "")); [|reflexivity|exact Hn]. cbn [x_pend x_open x_root x_out append].
    rewrite run_app_s, (run_spaces (AName n a (String c k)) (AEq n a (String c k)) b2); [|intros d D1 D2; one_space D1 D2|intros d D1 D2; one_space D1 D2|exact B2].
    cbn [append Xml_model.run]. replace (step (mkx (if b2 =? "" then AName n a (String c k) else AEq n a (String c k)) w open root o) "=") with (Go (mkx (AOpen n a (String c k)) w open root o)) by (destruct (b2 =? ""); reflexivity).
    rewrite run_app_s, (run_spaces (AOpen n a (String c k)) (AOpen n a (String c k)) b3); [|intros d D1 D2; one_space D1 D2|intros d D1 D2; one_space D1 D2|exact B3].
    replace (if b3 =? "" then AOpen n a (String c k) else AOpen n a (String c k)) with (AOpen n a (String c k)) by (destruct (b3 =? ""); reflexivity).
    cbn [Xml_model.run]. replace (step (mkx (AOpen n a (String c k)) w open root o) q) with (Go (mkx (AVal n a (String c k) q "") w open root o)) by (destruct Hq as [-> | ->]; reflexivity).
    rewrite run_app_s, (run_value_spelled q u v Hq Hv). cbn [append Xml_model.run].
    unfold Xml_model.step. replace (illegal q) with false by (destruct Hq as [-> | ->]; reflexivity). cbn [x_mode]. rewrite Ascii.eqb_refl. unfold add_attr. rewrite Hk. reflexivity.
  Qed.
  Lemma run_attrs_spelled b bw : Forall2 attr_spelled b bw -> forall n a m w open root o, tag_at m n a -> NoDup (map fst b) -> (forall k, In k (map fst b) -> dget a k = None) -> Forall (fun kv => is_name (fst kv) = true) b ->
    exists m', tag_at m' n (app a b) /\ run (mkx m w open root o) (join bw) = Go (mkx m' w open root o).
  Proof.
    intros H. induction H as [|kv x b bw H1 H IH]; intros n a m w open root o Hm ND Hd HF; [exists m; rewrite app_nil_r; split; [exact Hm|reflexivity]|].
    inversion_clear HF as [|? ? F1 F2]. cbn [map] in ND. inversion_clear ND as [|? ? N1 N2]. rewrite join_cons, run_app_s, (run_attr_spelled n a kv x m) by (try assumption; apply Hd; left; reflexivity).
    destruct (IH n (app a [kv]) (Tag n (app a [kv]) false) w open root o) as (m' & Hm' & E); [right; reflexivity|exact N2| |exact F2|].
    - intros k' Hk'. destruct kv as [k u]. apply dget_app_none; [apply Hd; right; exact Hk'|intros ->; contradiction].
    - exists m'. rewrite <- app_assoc in Hm'. split; [exact Hm'|exact E].
  Qed.
  (** the tag up to its end *)
  Lemma run_tag_spelled t a aw b w o open root : names_ok t a -> Forall2 attr_spelled a aw -> blank b -> (open = [] -> root = false) ->
    exists m, ((m = Name t /\ a = []) \/ exists sp, m = Tag t a sp) /\ run (mkx Lt w open root o) (t ++ join aw ++ b) = Go (mkx m w open root o).
  Proof.
    intros (Ht & ND & HF) Ha Hb Hr. destruct t as [|c t]; [discriminate|]. cbn [is_name] in Ht. apply andb_true_iff in Ht. destruct Ht as [Hc Ht]. destruct (letter_ok c Hc) as (E1 & E2 & E3 & E4 & E5 & E6 & E7 & E8 & E9).
    cbn [append Xml_model.run]. assert (S1 : step (mkx Lt w open root o) c = Go (mkx (Name (String c "")) w open root o)).
    { unfold Xml_model.step. rewrite E2. cbn [x_mode]. unfold in_lt. rewrite E5, E6, E7, E3. cbn [x_open x_root x_out]. destruct open; [rewrite (Hr eq_refl)|]; reflexivity. }
    rewrite S1, run_app_s, (run_name cut t (String c "")); [|reflexivity|exact Ht]. cbn [x_pend x_open x_root x_out append]. rewrite run_app_s.
    destruct (run_attrs_spelled a aw Ha (String c t) [] (Name (String c t)) w open root o) as (m & Hm & E); [left; auto|exact ND|reflexivity|exact HF|]. cbn [app] in Hm. rewrite E.
    exists (if b =? "" then m else Tag (String c t) a true). split.
    - destruct (b =? ""); [|right; exists true; reflexivity]. destruct Hm as [Hm| ->]; [left; exact Hm|right; exists false; reflexivity].
    - apply run_spaces; [|intros d D1 D2; one_space D1 D2|exact Hb]. intros d D1 D2. destruct Hm as [[-> ->] | ->]; one_space D1 D2.
  Qed.
  Lemma run_start_spelled t a aw b w o open root rest : names_ok t a -> Forall2 attr_spelled a aw -> blank b -> (open = [] -> root = false) ->
    run (mkx Lt w open root o) (t ++ join aw ++ b ++ ">" ++ rest) = run (mkx (Text 0) "" (t :: open) true (app (app o (map Chars (flushed o w))) [Start t a])) rest.
  Proof.
    intros H1 H2 H3 H4. destruct (run_tag_spelled t a aw b w o open root H1 H2 H3 H4) as (m & Hm & E). replace (t ++ join aw ++ b ++ ">" ++ rest) with ((t ++ join aw ++ b) ++ ">" ++ rest) by (rewrite !app_assoc_s; reflexivity).
    rewrite run_app_s, E. cbn [append Xml_model.run]. unfold Xml_model.step at 1. cbn [x_mode]. change (illegal ">") with false. cbv iota. destruct Hm as [[-> ->]|(sp & ->)]; unfold Xml_model.start_tag; rewrite flush_flushed; reflexivity.
  Qed.
  Lemma run_empty_spelled t a aw b w o open root rest : names_ok t a -> Forall2 attr_spelled a aw -> blank b -> (open = [] -> root = false) ->
    run (mkx Lt w open root o) (t ++ join aw ++ b ++ "/>" ++ rest) = run (mkx (Text 0) "" open true (app (app o (map Chars (flushed o w))) [Start t a; End t])) rest.
  Proof.
    intros H1 H2 H3 H4. destruct (run_tag_spelled t a aw b w o open root H1 H2 H3 H4) as (m & Hm & E). replace (t ++ join aw ++ b ++ "/>" ++ rest) with ((t ++ join aw ++ b) ++ "/>" ++ rest) by (rewrite !app_assoc_s; reflexivity).
    rewrite run_app_s, E. cbn [append Xml_model.run]. replace (step (mkx m w open root o) "/") with (Go (mkx (Slash t a) w open root o)) by (destruct Hm as [[-> ->]|(sp & ->)]; reflexivity).
    unfold Xml_model.step at 1. cbn [x_mode]. change (illegal ">") with false. change (Ascii.eqb ">" GT) with true. cbv iota. unfold empty_tag. rewrite flush_flushed. reflexivity.
  Qed.
  Lemma run_end_spelled t b w o open rest : is_name t = true -> blank b -> run (mkx Lt w (t :: open) true o) ("/" ++ t ++ b ++ ">" ++ rest) = run (mkx (Text 0) "" open true (app (app o (map Chars (flushed o w))) [End t])) rest.
  Proof.
    intros Ht Hb. destruct t as [|c t]; [discriminate|]. cbn [is_name] in Ht. apply andb_true_iff in Ht. destruct Ht as [Hc Ht]. destruct (letter_ok c Hc) as (E1 & E2 & E3 & E4 & E5 & E6 & E7 & E8 & E9).
    cbn [append Xml_model.run]. change (step (mkx Lt w (String c t :: open) true o) "/") with (Go (mkx (Close "") w (String c t :: open) true o)). cbv iota beta.
    assert (S1 : step (mkx (Close "") w (String c t :: open) true o) c = Go (mkx (Close (String c "")) w (String c t :: open) true o)) by (unfold Xml_model.step; rewrite E2; cbn [x_mode]; change ("" =? "") with true; cbv iota; rewrite E3; reflexivity).
    rewrite S1, run_app_s, (run_close cut t (String c "")); [|reflexivity|discriminate|exact Ht]. cbn [x_pend x_open x_root x_out append].
    rewrite run_app_s, (run_spaces (Close (String c t)) (CloseSp (String c t)) b); [| |intros d D1 D2; one_space D1 D2|exact Hb].
    2:{ intros d D1 D2. unfold Xml_model.step. rewrite D2. cbn [x_mode]. change (String c t =? "") with false. cbv iota. rewrite (proj1 (space_no_name _ D1)), D1. reflexivity. }
    cbn [append Xml_model.run].
    assert (S2 : step (mkx (if b =? "" then Close (String c t) else CloseSp (String c t)) w (String c t :: open) true o) ">" = end_tag cut (mkx Lt w (String c t :: open) true o) (String c t)) by (destruct (b =? ""); reflexivity).
    rewrite S2. unfold end_tag. cbn [x_open x_out]. rewrite String.eqb_refl, flush_flushed. reflexivity.
  Qed.

  (** ** trees *)
  Hypothesis cut_join : forall o s, join (cut o s) = s.
  Hypothesis cut_words : forall o s, solid s \/ cut o s = [s].
  Definition reads_any (p : plain) : Prop := is_text p = false -> forall x, written solid p x -> forall o open root k w, (open = [] -> root = false) -> exists p', recut solid p p' /\
    forall rest, run (mkx (Text k) w open root o) (x ++ rest) = run (mkx (Text 0) "" open true (app (app o (map Chars (flushed o w))) (ser_plain p'))) rest.
  Lemma reads_any_list ch ws : Forall2 (written solid) ch ws -> Forall reads_any ch -> apart ch -> forall o m open k w, (match ch with p :: _ => is_text p = true -> w = "" /\ k = 0%nat | [] => True end) ->
    exists ch' w' o', Forall2 (recut solid) ch ch' /\ app o' (map Chars (flushed o' w')) = app (app o (map Chars (flushed o w))) (flat_map ser_plain ch') /\
      forall rest, run (mkx (Text k) w (m :: open) true o) (join ws ++ "<" ++ rest) = run (mkx Lt w' (m :: open) true o') rest.
  Proof.
    intros HW. induction HW as [|p x ch ws Hp HW IH]; intros HR HA o m open k w Hw.
    - exists [], w, o. split; [constructor|]. split; [cbn [flat_map]; rewrite app_nil_r; reflexivity|]. intros rest. change (join [] ++ "<" ++ rest) with (String "<" rest). cbn [Xml_model.run]. rewrite step_lt. reflexivity.
    - inversion_clear HR as [|? ? R1 R2]. cbn [apart] in HA. destruct HA as [A1 A2]. destruct p as [ps|t a sub].
      + destruct (Hw eq_refl) as [-> ->]. inversion Hp as [pi ps' x' Hsp Hsol| |]; subst.
        destruct (run_spelled pi 0 (join ps) x Hsp "" m open true o) as (k' & p' & cs & E & F & G). specialize (F cut_join). cbn [append] in F.
        destruct (IH R2 A2 (app o (map Chars cs)) m open k' p') as (ch' & w' & o' & L1 & L2 & L3).
        { destruct ch as [|q ch]; [exact I|]. rewrite (A1 eq_refl). discriminate. }
        exists (PText (app cs (flushed (app o (map Chars cs)) p')) :: ch'), w', o'. split; [constructor; [|exact L1]; constructor|].
        * rewrite join_app, flushed_join by exact cut_join. exact F.
        * destruct pi; [left; apply Hsol; reflexivity|]. rewrite (G eq_refl) in *. change (join []) with "" in F. cbn [append] in F. cbn [app map]. rewrite app_nil_r, F. apply flushed_words. exact cut_words.
        * split; [rewrite L2; cbn [flat_map ser_plain]; change (flushed o "") with (@nil string); cbn [map]; rewrite map_app, app_nil_r, !app_assoc; reflexivity|].
          intros rest. rewrite join_cons, app_assoc_s, run_app_s, E, L3. reflexivity.
      + destruct (R1 eq_refl x Hp o (m :: open) true k w) as (p' & Fp & E); [discriminate|].
        destruct (IH R2 A2 (app (app o (map Chars (flushed o w))) (ser_plain p')) m open 0%nat "") as (ch' & w' & o' & L1 & L2 & L3).
        { destruct ch as [|q ch]; [exact I|]. auto. }
        exists (p' :: ch'), w', o'. split; [constructor; [exact Fp|exact L1]|]. split; [rewrite L2; cbn [flat_map]; change (flushed _ "") with (@nil string); cbn [map]; rewrite app_nil_r, <- app_assoc; reflexivity|].
        intros rest. rewrite join_cons, app_assoc_s, E, L3. reflexivity.
  Qed.
  Lemma reads_any_all p : reads_any p.
  Proof.
    induction p as [ps|t a ch IH] using plain_ind'; intros Ht x HW o open root k w Hr; [discriminate|]. inversion HW as [|t' a' ch' aw ws b1 b2 Hn Ha B1 B2 Hap Hch|t' a' aw b Hn Ha Hb]; subst.
    - set (o1 := app (app o (map Chars (flushed o w))) [Start t a]).
      destruct (reads_any_list ch ws Hch IH Hap o1 t open 0%nat "") as (ch' & w' & o' & F & G & H); [destruct ch; [exact I|auto]|].
      exists (PElem t a ch'). split; [constructor; exact F|]. intros rest. rewrite !app_assoc_s. change ("<" ++ ?x) with (String "<" x). cbn [Xml_model.run]. rewrite step_lt.
      rewrite (run_start_spelled t a); [|exact Hn|exact Ha|exact B1|exact Hr]. fold o1. change ("</" ++ t ++ b2 ++ ">" ++ rest) with ("<" ++ ("/" ++ t ++ b2 ++ ">" ++ rest)). rewrite H.
      rewrite run_end_spelled by (try exact (proj1 Hn); exact B2). rewrite G. change (flushed o1 "") with (@nil string). cbn [map]. rewrite app_nil_r. unfold o1. cbn [ser_plain]. rewrite <- !app_assoc. reflexivity.
    - exists (PElem t a []). split; [constructor; constructor|]. intros rest. rewrite !app_assoc_s. change ("<" ++ ?x) with (String "<" x). cbn [Xml_model.run]. rewrite step_lt.
      rewrite (run_empty_spelled t a); [|exact Hn|exact Ha|exact Hb|exact Hr]. reflexivity.
  Qed.

  (** ** whole documents *)
  Lemma run_misc u : misc u -> forall k root o, exists k', run (mkx (Text k) "" [] root o) u = Go (mkx (Text k') "" [] root o).
  Proof.
    intros H. induction H as [|c u Hc H IH|x u Hx H IH|x u Hx H IH]; intros k root o.
    - exists k. reflexivity.
    - destruct (IH 0%nat root o) as (k' & E). exists k'. unfold blank in Hc. cbn [all] in Hc. apply andb_true_iff in Hc. destruct Hc as [Hc _]. destruct (blank_char c Hc) as (_ & E2 & E3 & E4). cbn [Xml_model.run].
      assert (St : step (mkx (Text k) "" [] root o) c = Go (mkx (Text 0) "" [] root o)) by (unfold Xml_model.step; rewrite E2; cbn [x_mode]; unfold in_text; rewrite E3; cbn [x_open]; rewrite E4; reflexivity).
      rewrite St. exact E.
    - destruct (IH 0%nat root o) as (k' & E). exists k'. rewrite run_app_s, run_comment by exact Hx. exact E.
    - destruct (IH 0%nat root o) as (k' & E). exists k'. rewrite run_app_s, run_instruction by exact Hx. change (flushed o "") with (@nil string). cbn [map]. rewrite app_nil_r. exact E.
  Qed.
  (** the declaration is skipped, and so is a processing instruction in its place *)
  Lemma run_decl_data y : forall q w open root o, all printable y = true -> ~ occurs "?>" ((if q : bool then "?" else "") ++ y) ->
    exists q', run (mkx (if q then DeclQ else Decl) w open root o) y = Go (mkx (if q' : bool then DeclQ else Decl) w open root o).
  Proof.
    induction y as [|c y IH]; intros q w open root o Hp Ho; [exists q; reflexivity|]. cbn [all] in Hp. apply andb_true_iff in Hp. destruct Hp as [Hc Hp]. apply printable_ok in Hc.
    assert (St : exists q1, step (mkx (if q then DeclQ else Decl) w open root o) c = Go (mkx (if q1 : bool then DeclQ else Decl) w open root o) /\ (q1 = true -> c = QM)).
    { unfold Xml_model.step. rewrite Hc. destruct q; cbn [x_mode].
      - destruct (Ascii.eqb_spec c GT) as [->|]; [exfalso; apply Ho; exists "", y; reflexivity|]. destruct (Ascii.eqb_spec c QM) as [->|]; [exists true|exists false]; (split; [reflexivity|congruence]).
      - destruct (Ascii.eqb_spec c QM) as [->|]; [exists true|exists false]; (split; [reflexivity|congruence]). }
    destruct St as (q1 & E & Hq). cbn [Xml_model.run]. rewrite E. apply IH; [exact Hp|]. intros K. apply Ho. apply occurs_suffix. destruct q1; [rewrite (Hq eq_refl); exact K|]. apply (occurs_suffix _ (String c "") y). exact K.
  Qed.
  Lemma run_decl_name t : forall w open root o, all name_letter t = true -> run (mkx Decl w open root o) t = Go (mkx Decl w open root o).
  Proof.
    induction t as [|c t IH]; intros w open root o H; [reflexivity|]. cbn [all] in H. apply andb_true_iff in H. destruct H as [Hc H].
    assert (St : step (mkx Decl w open root o) c = Go (mkx Decl w open root o)).
    { destruct (name_letter_ok c Hc) as (_ & E2 & E3). unfold Xml_model.step. rewrite E2. cbn [x_mode]. destruct (Ascii.eqb_spec c QM) as [->|]; [discriminate E3|reflexivity]. }
    cbn [Xml_model.run]. rewrite St. apply IH. exact H.
  Qed.
  Lemma letter_name_letter c : letter c = true -> name_letter c = true.
  Proof. intros H. unfold name_letter. rewrite H. reflexivity. Qed.
  Lemma run_first_instruction x : instruction x -> run x_init x = Go (mkx (Text 0) "" [] false []).
  Proof.
    intros (n & y & -> & Hn & _ & Hp & Ho & _). rewrite run_app_s. change (run x_init "<?") with (Go (mkx Decl "" [] false [])). cbv iota beta.
    rewrite run_app_s, run_decl_name. 2:{ destruct n as [|c n]; [discriminate|]. cbn [is_name] in Hn. apply andb_true_iff in Hn. destruct Hn as [Hc Hn]. cbn [all]. rewrite (letter_name_letter c Hc), Hn. reflexivity. }
    rewrite run_app_s. destruct (run_decl_data y false "" [] false [] Hp Ho) as (q & E). cbv iota in E. rewrite E. destruct q; reflexivity.
  Qed.
  (** at the very beginning the reader is as after white space, except for a [<?] *)
  Lemma run_first c r : c <> QM -> run x_init (String "<" (String c r)) = run (mkx (Text 0) "" [] false []) (String "<" (String c r)).
  Proof.
    intros N. cbn [Xml_model.run]. change (step x_init "<") with (Go (mkx First "" [] false [])). change (step (mkx (Text 0) "" [] false []) "<") with (Go (mkx Lt "" [] false [])). cbv iota beta.
    replace (step (mkx First "" [] false []) c) with (step (mkx Lt "" [] false []) c); [reflexivity|]. unfold Xml_model.step. cbn [x_mode]. rewrite (proj2 (Ascii.eqb_neq c QM) N). reflexivity.
  Qed.
  Lemma run_front h u t r : heading h -> misc u -> is_name t = true -> exists k, run x_init (h ++ u ++ "<" ++ t ++ r) = run (mkx (Text k) "" [] false []) ("<" ++ t ++ r).
  Proof.
    intros Hh Hu Ht. destruct t as [|c t]; [discriminate|]. cbn [is_name] in Ht. apply andb_true_iff in Ht. destruct Ht as [Hc _]. destruct (letter_ok c Hc) as (E1 & E2 & E3 & E4 & E5 & E6 & E7 & E8 & E9).
    destruct Hh as [->|(d & b & Hd & Hb & ->)].
    - change ("" ++ ?z) with z. destruct Hu as [|e u He Hu|x u Hx Hu|x u Hx Hu].
      + exists 0%nat. cbn [append]. apply run_first. intros ->. discriminate E6.
      + destruct (run_misc u Hu 0%nat false []) as (k & E). exists k. cbn [append Xml_model.run]. unfold blank in He. cbn [all] in He. apply andb_true_iff in He. destruct He as [He _]. destruct (blank_char e He) as (_ & F2 & F3 & F4).
        assert (St : step x_init e = Go (mkx (Text 0) "" [] false [])) by (unfold Xml_model.step, x_init; rewrite F2; cbn [x_mode]; rewrite F3; unfold in_text; rewrite F3; cbn [x_open]; rewrite F4; reflexivity).
        rewrite St, run_app_s, E. reflexivity.
      + destruct (run_misc u Hu 0%nat false []) as (k & E). exists k. rewrite app_assoc_s, run_app_s.
        replace (run x_init x) with (run (mkx (Text 0) "" [] false []) x) by (destruct Hx as (y & -> & _); symmetry; apply run_first; discriminate).
        rewrite run_comment by exact Hx. rewrite run_app_s, E. reflexivity.
      + destruct (run_misc u Hu 0%nat false []) as (k & E). exists k. rewrite app_assoc_s, run_app_s, run_first_instruction by exact Hx. rewrite run_app_s, E. reflexivity.
    - rewrite !app_assoc_s, run_app_s. change (run x_init "<?") with (Go (mkx Decl "" [] false [])). cbv iota beta. rewrite run_app_s, run_decl by (try reflexivity; exact Hd). rewrite run_app_s. change (run (mkx Decl "" [] false []) "?>") with (Go (mkx (Text 0) "" [] false [])). cbv iota beta.
      destruct (run_blank cut b 0 "" false [] Hb) as (k & E). rewrite run_app_s, E. destruct (run_misc u Hu k false []) as (k' & E'). exists k'. rewrite run_app_s, E'. reflexivity.
  Qed.
  Lemma reading_any h u t a ch x v : heading h -> misc u -> misc v -> written solid (PElem t a ch) x -> exists p', recut solid (PElem t a ch) p' /\ reading_of cut (h ++ u ++ x ++ v) = Whole (ser_plain p').
  Proof.
    intros Hh Hu Hv HW. assert (X : is_name t = true /\ exists r, x = "<" ++ t ++ r) by (inversion HW as [|t' a' ch' aw ws b1 b2 Hn|t' a' aw b Hn]; subst; (split; [exact (proj1 Hn)|eexists; reflexivity])).
    destruct X as (Ht & r & X). destruct (run_front h u t (r ++ v) Hh Hu Ht) as (k & E).
    destruct (reads_any_all (PElem t a ch) eq_refl x HW [] [] false k "" (fun _ => eq_refl)) as (p' & F & R). exists p'. split; [exact F|].
    destruct (run_misc v Hv 0%nat true (app (app [] (map Chars (flushed [] ""))) (ser_plain p'))) as (k' & G). rewrite <- R in G.
    unfold reading_of. assert (G' : run x_init (h ++ u ++ x ++ v) = Go (mkx (Text k') "" [] true (app (app [] (map Chars (flushed [] ""))) (ser_plain p')))).
    { rewrite X in G |- *. rewrite !app_assoc_s in G |- *. rewrite E. exact G. }
    rewrite (run_norm _ _ _ _ G'). reflexivity.
  Qed.
End Read.

(** ** line breaks *)
Lemma norm_breaks raw t : other_breaks raw t -> norm false raw = t /\ no_cr t.
Proof.
  intros H. induction H as [|c s t N H [IH1 IH2]|s t H [IH1 IH2]|s t N H [IH1 IH2]].
  - split; reflexivity.
  - unfold no_cr. cbn [norm all]. replace (Ascii.eqb c CR) with false by (symmetry; apply Ascii.eqb_neq; exact N). rewrite IH1. split; [reflexivity|exact IH2].
  - split; [|exact IH2]. change (norm false (String cr (String lf s))) with (String lf (norm false s)). rewrite IH1. reflexivity.
  - split; [|exact IH2]. change (norm false (String cr s)) with (String lf (norm true s)). f_equal. rewrite <- IH1. destruct s as [|c s]; [reflexivity|]. cbn [norm]. destruct (Ascii.eqb c CR); [reflexivity|].
    destruct (Ascii.eqb_spec c LF) as [->|]; [|reflexivity]. exfalso. apply N. exists s. reflexivity.
Qed.
