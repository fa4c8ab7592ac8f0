(** * The reader on the text of a tree *)
From Coq Require Import List Bool String Ascii Arith Lia ZArith QArith.
From Verif Require Import Base Dict QuakeML_model Spec_QuakeML QuakeML_proofs Props_QuakeML Spec_Export Spec_Xml Xml_model.
Import ListNotations.
Open Scope string_scope.

Section Read.
  Variable cut : list sax -> string -> list string.
  Notation run := (Xml_model.run cut).
  Notation step := (Xml_model.step cut).
  Notation flush := (Xml_model.flush cut).

  Lemma run_app_s s t u : run s (t ++ u) = match run s t with Go s' => run s' u | o => o end.
  Proof. revert s. induction t as [|c t IH]; intros s; [reflexivity|]. cbn [append Xml_model.run]. destruct (step s c); [apply IH|reflexivity|reflexivity]. Qed.

  (** ** characters *)
  Lemma char_ind (P : ascii -> bool) : (forall b0 b1 b2 b3 b4 b5 b6 b7, P (Ascii b0 b1 b2 b3 b4 b5 b6 b7) = true) -> forall c, P c = true.
  Proof. intros H [? ? ? ? ? ? ? ?]. apply H. Qed.
  Lemma by_cases (P : ascii -> bool) : forallb P (map ascii_of_nat (seq 0 256)) = true -> forall c, P c = true.
  Proof.
    intros H c. rewrite forallb_forall in H. apply H. apply in_map_iff. exists (nat_of_ascii c). split; [apply ascii_nat_embedding|]. apply in_seq. pose proof (nat_ascii_bounded c). lia.
  Qed.
  Lemma text_char_ok c : text_char c = true -> Ascii.eqb c CR = false /\ illegal c = false /\ Ascii.eqb c LT = false /\ Ascii.eqb c AMP = false.
  Proof.
    intros H. pose proof (by_cases (fun c => implb (text_char c) (negb (Ascii.eqb c CR) && negb (illegal c) && negb (Ascii.eqb c LT) && negb (Ascii.eqb c AMP))) eq_refl c) as K. cbv beta in K. rewrite H in K. cbn [implb] in K.
    rewrite !andb_true_iff, !negb_true_iff in K. tauto.
  Qed.
  Lemma id_char_ok c : id_char c = true -> Ascii.eqb c CR = false /\ illegal c = false /\ Ascii.eqb c LT = false /\ Ascii.eqb c AMP = false /\ Ascii.eqb c QUOT = false /\ (xspace c = false \/ c = " "%char).
  Proof.
    intros H. pose proof (by_cases (fun c => implb (id_char c) (negb (Ascii.eqb c CR) && negb (illegal c) && negb (Ascii.eqb c LT) && negb (Ascii.eqb c AMP) && negb (Ascii.eqb c QUOT) && (negb (xspace c) || Ascii.eqb c " "))) eq_refl c) as K. cbv beta in K. rewrite H in K. cbn [implb] in K.
    rewrite !andb_true_iff, orb_true_iff, !negb_true_iff, Ascii.eqb_eq in K. tauto.
  Qed.
  Lemma letter_ok c : letter c = true -> Ascii.eqb c CR = false /\ illegal c = false /\ name_start c = true /\ name_char c = true /\ Ascii.eqb c BANG = false /\ Ascii.eqb c QM = false /\ Ascii.eqb c SLASH = false /\ xspace c = false /\ Ascii.eqb c GT = false.
  Proof.
    intros H. pose proof (by_cases (fun c => implb (letter c) (negb (Ascii.eqb c CR) && negb (illegal c) && name_start c && name_char c && negb (Ascii.eqb c BANG) && negb (Ascii.eqb c QM) && negb (Ascii.eqb c SLASH) && negb (xspace c) && negb (Ascii.eqb c GT))) eq_refl c) as K. cbv beta in K. rewrite H in K. cbn [implb] in K.
    rewrite !andb_true_iff, !negb_true_iff in K. tauto.
  Qed.
  Lemma name_letter_ok c : name_letter c = true -> Ascii.eqb c CR = false /\ illegal c = false /\ name_char c = true.
  Proof.
    intros H. pose proof (by_cases (fun c => implb (name_letter c) (negb (Ascii.eqb c CR) && negb (illegal c) && name_char c)) eq_refl c) as K. cbv beta in K. rewrite H in K. cbn [implb] in K.
    rewrite !andb_true_iff, !negb_true_iff in K. tauto.
  Qed.
  Lemma snoc_app s c t : snoc s c ++ t = s ++ String c t.
  Proof. unfold snoc. rewrite app_assoc_s. reflexivity. Qed.
  Lemma snoc_nonempty s c : (snoc s c =? "") = false.
  Proof. unfold snoc. destruct s; reflexivity. Qed.

  (** ** texts *)
  Fixpoint brackets (k : nat) : string := match k with O => "" | S k => String RB (brackets k) end.
  Lemma brackets_snoc k t : brackets k ++ String RB t = brackets (S k) ++ t.
  Proof. induction k as [|k IH]; [reflexivity|]. cbn [brackets append]. rewrite IH. reflexivity. Qed.
  Lemma occurs_suffix sub a b : occurs sub b -> occurs sub (a ++ b).
  Proof. intros (x & y & ->). exists (a ++ x), y. apply eq_sym, app_assoc_s. Qed.
  Lemma run_text t : forall k w o open root, open <> [] -> all text_char t = true -> ~ occurs "]]>" (brackets k ++ t) ->
    exists k', run (mkx (Text k) w open root o) t = Go (mkx (Text k') (w ++ t) open root o).
  Proof.
    induction t as [|c t IH]; intros k w o open root Ho Hc Hn; [exists k; cbn; rewrite app_nil_s; reflexivity|].
    cbn [all] in Hc. apply andb_true_iff in Hc. destruct Hc as [Hc Ht]. destruct (text_char_ok c Hc) as (E1 & E2 & E3 & E4).
    cbn [Xml_model.run]. unfold Xml_model.step. rewrite E2. cbn [x_mode]. unfold in_text. rewrite E3, E4. cbn [x_open]. destruct open as [|m open]; [congruence|].
    destruct (Ascii.eqb c GT && (2 <=? k)%nat) eqn:F.
    - exfalso. apply andb_true_iff in F. destruct F as [F1 F2]. apply Ascii.eqb_eq in F1. subst c. apply Nat.leb_le in F2. apply Hn. exists (brackets (k - 2)), t.
      replace k with (S (S (k - 2))) at 1 by lia. rewrite <- !brackets_snoc. reflexivity.
    - unfold add_text. cbn [x_pend x_open x_root x_out]. fold (snoc w c). destruct (IH (if Ascii.eqb c RB then S k else 0%nat) (snoc w c) o (m :: open) root) as (k' & E); [discriminate|exact Ht| |].
      + destruct (Ascii.eqb c RB) eqn:R.
        * apply Ascii.eqb_eq in R. subst c. rewrite brackets_snoc in Hn. exact Hn.
        * cbn [brackets append]. intros K. apply Hn. apply occurs_suffix. apply (occurs_suffix _ (String c "") t). exact K.
      + exists k'. rewrite E. unfold snoc. rewrite app_assoc_s. reflexivity.
  Qed.

  (** ** tags *)
  Lemma run_name t : forall n s, x_mode s = Name n -> all name_letter t = true -> run s t = Go (mkx (Name (n ++ t)) (x_pend s) (x_open s) (x_root s) (x_out s)).
  Proof.
    induction t as [|c t IH]; intros n s Hm Ht; [cbn; rewrite app_nil_s; destruct s; cbn in *; congruence|]. cbn [all] in Ht. apply andb_true_iff in Ht. destruct Ht as [Hc Ht].
    destruct (name_letter_ok c Hc) as (E1 & E2 & E3). cbn [Xml_model.run]. unfold Xml_model.step. rewrite E2, Hm, E3. unfold goto. rewrite (IH (snoc n c)); [|reflexivity|exact Ht]. cbn [x_pend x_open x_root x_out]. rewrite snoc_app. reflexivity.
  Qed.
  Lemma run_aname t : forall n a k s, x_mode s = AName n a k -> all name_letter t = true -> run s t = Go (mkx (AName n a (k ++ t)) (x_pend s) (x_open s) (x_root s) (x_out s)).
  Proof.
    induction t as [|c t IH]; intros n a k s Hm Ht; [cbn; rewrite app_nil_s; destruct s; cbn in *; congruence|]. cbn [all] in Ht. apply andb_true_iff in Ht. destruct Ht as [Hc Ht].
    destruct (name_letter_ok c Hc) as (E1 & E2 & E3). cbn [Xml_model.run]. unfold Xml_model.step. rewrite E2, Hm, E3. unfold goto. rewrite (IH n a (snoc k c)); [|reflexivity|exact Ht]. cbn [x_pend x_open x_root x_out]. rewrite snoc_app. reflexivity.
  Qed.
  Lemma run_close t : forall n s, x_mode s = Close n -> n <> "" -> all name_letter t = true -> run s t = Go (mkx (Close (n ++ t)) (x_pend s) (x_open s) (x_root s) (x_out s)).
  Proof.
    induction t as [|c t IH]; intros n s Hm Hn Ht; [cbn; rewrite app_nil_s; destruct s; cbn in *; congruence|]. cbn [all] in Ht. apply andb_true_iff in Ht. destruct Ht as [Hc Ht].
    destruct (name_letter_ok c Hc) as (E1 & E2 & E3). cbn [Xml_model.run]. unfold Xml_model.step. rewrite E2, Hm, (proj2 (String.eqb_neq n "") Hn), E3. unfold goto. rewrite (IH (snoc n c)); [|reflexivity|intros K; pose proof (snoc_nonempty n c); rewrite K in *; discriminate|exact Ht]. cbn [x_pend x_open x_root x_out]. rewrite snoc_app. reflexivity.
  Qed.
  Lemma run_value t : forall n a k v s, x_mode s = AVal n a k QUOT v -> all id_char t = true -> run s t = Go (mkx (AVal n a k QUOT (v ++ t)) (x_pend s) (x_open s) (x_root s) (x_out s)).
  Proof.
    induction t as [|c t IH]; intros n a k v s Hm Ht; [cbn; rewrite app_nil_s; destruct s; cbn in *; congruence|]. cbn [all] in Ht. apply andb_true_iff in Ht. destruct Ht as [Hc Ht].
    destruct (id_char_ok c Hc) as (E1 & E2 & E3 & E4 & E5 & E6). cbn [Xml_model.run]. unfold Xml_model.step. rewrite E2, Hm, E3, E4, E5. unfold goto.
    assert (E7 : (if xspace c then " "%char else c) = c) by (destruct E6 as [-> | ->]; reflexivity). rewrite E7.
    rewrite (IH n a k (snoc v c)); [|reflexivity|exact Ht]. cbn [x_pend x_open x_root x_out]. rewrite snoc_app. reflexivity.
  Qed.
  Lemma dget_app_none {V} (a : dict V) k v k' : dget a k' = None -> k' <> k -> dget (app a [(k, v)]) k' = None.
  Proof. induction a as [|[x y] a IH]; cbn; intros H N; [rewrite (proj2 (String.eqb_neq k' k) N); reflexivity|]. destruct (k' =? x); [discriminate|auto]. Qed.
  (** in the tag: either still in its name, or after an attribute *)
  Definition tag_at (m : mode) (n : string) (a : attributes) : Prop := (m = Name n /\ a = []) \/ m = Tag n a false.
  Lemma run_attr n a k v s : tag_at (x_mode s) n a -> dget a k = None -> is_name k = true -> safe_id v ->
    run s (xml_attr (k, v)) = Go (mkx (Tag n (app a [(k, v)]) false) (x_pend s) (x_open s) (x_root s) (x_out s)).
  Proof.
    intros Hm Hk Hn Hv. destruct k as [|c k]; [discriminate|]. cbn [is_name] in Hn. apply andb_true_iff in Hn. destruct Hn as [Hc Hn]. destruct (letter_ok c Hc) as (E1 & E2 & E3 & E4 & E5 & E6 & E7 & E8 & E9).
    unfold xml_attr. cbn [fst snd append]. cbn [Xml_model.run].
    assert (S1 : step s " " = goto s (Tag n a true)).
    { unfold Xml_model.step. change (Ascii.eqb " " CR) with false. change (illegal " ") with false. cbv iota. destruct Hm as [[-> ->] | ->]; reflexivity. }
    rewrite S1. unfold goto at 1. unfold Xml_model.step at 1. rewrite E2. cbn [x_mode]. rewrite E8, E9, E7, E3. cbn [andb goto x_pend x_open x_root x_out].
    unfold goto. cbn [x_pend x_open x_root x_out]. rewrite run_app_s, (run_aname k n a (String c "")); [|reflexivity|exact Hn]. cbn [x_pend x_open x_root x_out].
    cbn [append Xml_model.run]. unfold Xml_model.step at 1. cbn [x_mode]. change (illegal "=") with false. change (name_char "=") with false. change (xspace "=") with false. change (Ascii.eqb "=" EQ) with true. cbv iota. unfold goto. cbn [x_pend x_open x_root x_out].
    unfold Xml_model.step at 1. cbn [x_mode]. change (illegal quote) with false. change (xspace quote) with false. change (Ascii.eqb quote QUOT) with true. cbv iota. cbn [orb]. unfold goto. cbn [x_pend x_open x_root x_out].
    rewrite run_app_s. change quote with QUOT. rewrite (run_value v n a (String c k) ""); [|reflexivity|exact Hv]. cbn [x_pend x_open x_root x_out append Xml_model.run].
    unfold Xml_model.step. cbn [x_mode]. change (illegal QUOT) with false. rewrite Ascii.eqb_refl. unfold add_attr. rewrite Hk. unfold goto. cbn [x_pend x_open x_root x_out]. reflexivity.
  Qed.
  Lemma join_cons x l : join (x :: l) = x ++ join l. Proof. reflexivity. Qed.
  Lemma run_attrs b : forall n a s, tag_at (x_mode s) n a -> NoDup (map fst b) -> (forall k, In k (map fst b) -> dget a k = None) -> Forall (fun kv => is_name (fst kv) = true /\ safe_id (snd kv)) b ->
    exists m, tag_at m n (app a b) /\ run s (xml_attrs b) = Go (mkx m (x_pend s) (x_open s) (x_root s) (x_out s)).
  Proof.
    induction b as [|[k v] b IH]; intros n a s Hm ND Hd HF; [exists (x_mode s); rewrite app_nil_r; split; [exact Hm|destruct s; reflexivity]|].
    inversion_clear HF as [|? ? [F1 F2] F3]. cbn [map fst] in ND. inversion_clear ND as [|? ? N1 N2]. unfold xml_attrs. cbn [map]. rewrite join_cons, run_app_s, (run_attr n a k v s Hm (Hd k (or_introl eq_refl)) F1 F2).
    destruct (IH n (app a [(k, v)]) (mkx (Tag n (app a [(k, v)]) false) (x_pend s) (x_open s) (x_root s) (x_out s))) as (m & Hm' & E); [right; reflexivity|exact N2| |exact F3|].
    - intros k' Hk'. apply dget_app_none; [apply Hd; right; exact Hk'|intros ->; contradiction].
    - exists m. rewrite <- app_assoc in Hm'. split; [exact Hm'|exact E].
  Qed.
  Definition flushed (o : list sax) (w : string) : list string := if w =? "" then [] else cut o w.
  Lemma flush_flushed m w open root o : flush (mkx m w open root o) = app o (map Chars (flushed o w)).
  Proof. unfold Xml_model.flush, flushed. cbn. destruct (w =? ""); cbn; [rewrite app_nil_r|]; reflexivity. Qed.
  (** the whole start tag, after its [<] *)
  Lemma run_start t a w o open root rest : is_name t = true -> safe_attrs a -> (open = [] -> root = false) ->
    run (mkx Lt w open root o) (t ++ xml_attrs a ++ ">" ++ rest) = run (mkx (Text 0) "" (t :: open) true (app (app o (map Chars (flushed o w))) [Start t a])) rest.
  Proof.
    intros Ht [ND HF] Hr. destruct t as [|c t]; [discriminate|]. cbn [is_name] in Ht. apply andb_true_iff in Ht. destruct Ht as [Hc Ht]. destruct (letter_ok c Hc) as (E1 & E2 & E3 & E4 & E5 & E6 & E7 & E8 & E9).
    cbn [append Xml_model.run]. unfold Xml_model.step at 1. rewrite E2. cbn [x_mode]. unfold in_lt. rewrite E5, E6, E7, E3. cbn [orb x_open x_root x_out].
    assert (G : match open with [] => if root then Bad o else goto (mkx Lt w open root o) (Name (String c "")) | _ :: _ => goto (mkx Lt w open root o) (Name (String c "")) end = Go (mkx (Name (String c "")) w open root o)).
    { destruct open; [rewrite (Hr eq_refl)|]; reflexivity. }
    match goal with |- match ?X with _ => _ end = _ => replace X with (Go (mkx (Name (String c "")) w open root o)) by (rewrite <- G; destruct open, root; reflexivity) end.
    rewrite run_app_s, (run_name t (String c "")); [|reflexivity|exact Ht]. cbn [x_pend x_open x_root x_out append]. rewrite run_app_s.
    destruct (run_attrs a (String c t) [] (mkx (Name (String c t)) w open root o)) as (m & Hm & E); [left; auto|exact ND|reflexivity|exact HF|]. rewrite E. cbn [x_pend x_open x_root x_out append app] in *.
    cbn [Xml_model.run]. unfold Xml_model.step at 1. cbn [x_mode]. change (illegal ">") with false. cbv iota. destruct Hm as [[-> ->] | ->]; cbn [Xml_model.start_tag]; unfold Xml_model.start_tag; rewrite flush_flushed; reflexivity.
  Qed.
  (** the end tag, after its [<] *)
  Lemma run_end t w o open rest : is_name t = true -> run (mkx Lt w (t :: open) true o) ("/" ++ t ++ ">" ++ rest) = run (mkx (Text 0) "" open true (app (app o (map Chars (flushed o w))) [End t])) rest.
  Proof.
    intros Ht. destruct t as [|c t]; [discriminate|]. cbn [is_name] in Ht. apply andb_true_iff in Ht. destruct Ht as [Hc Ht]. destruct (letter_ok c Hc) as (E1 & E2 & E3 & E4 & E5 & E6 & E7 & E8 & E9).
    cbn [append]. cbn [Xml_model.run]. unfold Xml_model.step at 1. cbn [x_mode]. change (illegal "/") with false. cbv iota. unfold in_lt. change (Ascii.eqb "/" BANG) with false. change (Ascii.eqb "/" QM) with false. change (Ascii.eqb "/" SLASH) with true. cbv iota. cbn [x_open]. unfold goto. cbn [x_pend x_open x_root x_out].
    unfold Xml_model.step at 1. rewrite E2. cbn [x_mode]. change ("" =? "") with true. cbv iota. rewrite E3. unfold goto. cbn [x_pend x_open x_root x_out]. change (snoc "" c) with (String c "").
    rewrite run_app_s, (run_close t (String c "")); [|reflexivity|discriminate|exact Ht]. cbn [x_pend x_open x_root x_out append Xml_model.run].
    unfold Xml_model.step at 1. cbn [x_mode]. change (illegal ">") with false. change (name_char ">") with false. change (String c t =? "") with false. cbv iota. change (xspace ">") with false. change (Ascii.eqb ">" GT) with true. cbv iota.
    unfold end_tag. cbn [x_open x_out]. rewrite String.eqb_refl, flush_flushed. reflexivity.
  Qed.

  (** ** trees *)
  Hypothesis cut_join : forall o s, join (cut o s) = s.
  Hypothesis cut_words : forall o s, solid s \/ cut o s = [s].
  Lemma flushed_join o w : join (flushed o w) = w.
  Proof. unfold flushed. destruct (String.eqb_spec w "") as [->|]; [reflexivity|apply cut_join]. Qed.
  Lemma solid_empty : solid "".
  Proof. intros a x b y c E. destruct a; discriminate. Qed.
  Lemma flushed_words o w : solid w \/ flushed o w = [w].
  Proof. unfold flushed. destruct (String.eqb_spec w "") as [->|]; [left; apply solid_empty|apply cut_words]. Qed.
  Lemma step_lt k w open root o : step (mkx (Text k) w open root o) "<" = Go (mkx Lt w open root o).
  Proof. reflexivity. Qed.
  (* the pieces depend on what came before, so [p'] depends on [o] and [w] *)
  Definition reads (p : plain) : Prop := is_text p = false -> safe p -> forall o open root k w, (open = [] -> root = false) -> exists p', recut solid p p' /\
    forall rest, run (mkx (Text k) w open root o) (xml p ++ rest) = run (mkx (Text 0) "" open true (app (app o (map Chars (flushed o w))) (ser_plain p'))) rest.
  Lemma reads_list ch : Forall reads ch -> fold_right (fun c r => safe c /\ r) True ch -> apart ch -> forall o open k w, open <> [] -> (match ch with p :: _ => is_text p = true -> w = "" /\ k = 0%nat | [] => True end) ->
    exists ch' w' o', Forall2 (recut solid) ch ch' /\ app o' (map Chars (flushed o' w')) = app (app o (map Chars (flushed o w))) (flat_map ser_plain ch') /\
      forall rest, run (mkx (Text k) w open true o) (join (map xml ch) ++ "<" ++ rest) = run (mkx Lt w' open true o') rest.
  Proof.
    induction ch as [|p ch IH]; intros HR HS HA o open k w Ho Hw.
    - exists [], w, o. split; [constructor|]. split; [cbn [flat_map]; rewrite app_nil_r; reflexivity|]. intros rest. change (join (map xml []) ++ "<" ++ rest) with (String "<" rest). cbn [Xml_model.run]. rewrite step_lt. reflexivity.
    - inversion_clear HR as [|? ? R1 R2]. cbn [fold_right] in HS. destruct HS as [S1 S2]. cbn [apart] in HA. destruct HA as [A1 A2]. destruct p as [ps|t a sub].
      + destruct (Hw eq_refl) as [-> ->]. cbn [safe] in S1. destruct S1 as [T1 T2].
        destruct (run_text (join ps) 0 "" o open true Ho T1 T2) as (k' & E). cbn [append] in E.
        destruct (IH R2 S2 A2 o open k' (join ps) Ho) as (ch' & w' & o' & F & G & H).
        { destruct ch as [|q ch]; [exact I|]. rewrite (A1 eq_refl). discriminate. }
        exists (PText (flushed o (join ps)) :: ch'), w', o'. split; [constructor; [|exact F]; constructor; [apply flushed_join|apply flushed_words]|].
        split; [rewrite G; cbn [flat_map ser_plain]; change (flushed o "") with (@nil string); cbn [map]; rewrite app_nil_r, <- app_assoc; reflexivity|].
        intros rest. cbn [map]. rewrite join_cons, app_assoc_s, run_app_s. cbn [xml]. rewrite E, H. reflexivity.
      + destruct (R1 eq_refl S1 o open true k w) as (p' & Fp & E); [intros; contradiction|].
        destruct (IH R2 S2 A2 (app (app o (map Chars (flushed o w))) (ser_plain p')) open 0%nat "" Ho) as (ch' & w' & o' & F & G & H).
        { destruct ch as [|q ch]; [exact I|]. auto. }
        exists (p' :: ch'), w', o'. split; [constructor; [exact Fp|exact F]|]. split; [rewrite G; cbn [flat_map]; change (flushed _ "") with (@nil string); cbn [map]; rewrite app_nil_r, <- app_assoc; reflexivity|].
        intros rest. cbn [map]. rewrite join_cons, app_assoc_s, E, H. reflexivity.
  Qed.
  Lemma reads_all p : reads p.
  Proof.
    induction p as [ps|t a ch IH] using plain_ind'; intros Ht HS o open root k w Hr; [discriminate|]. cbn [safe] in HS. destruct HS as (S1 & S2 & S3 & S4).
    set (o1 := app (app o (map Chars (flushed o w))) [Start t a]).
    destruct (reads_list ch IH S4 S3 o1 (t :: open) 0%nat "") as (ch' & w' & o' & F & G & H); [discriminate|destruct ch; [exact I|auto]|].
    exists (PElem t a ch'). split; [constructor; exact F|]. intros rest. cbn [xml]. rewrite !app_assoc_s. change ("<" ++ ?x) with (String "<" x). cbn [Xml_model.run]. rewrite step_lt.
    rewrite (run_start t a); [|exact S1|exact S2|exact Hr]. fold o1. change ("</" ++ t ++ ">" ++ rest) with ("<" ++ ("/" ++ t ++ ">" ++ rest)). rewrite H.
    rewrite run_end by exact S1. rewrite G. change (flushed o1 "") with (@nil string). cbn [map]. rewrite app_nil_r. unfold o1. cbn [ser_plain]. rewrite <- !app_assoc. reflexivity.
  Qed.
End Read.

(** ** line breaks *)
Definition no_cr (t : string) : Prop := all (fun c => negb (Ascii.eqb c CR)) t = true.
Lemma norm_app t : forall u, no_cr t -> norm false (t ++ u) = t ++ norm false u.
Proof.
  unfold no_cr. induction t as [|c t IH]; intros u H; [reflexivity|]. cbn [all] in H. apply andb_true_iff in H. destruct H as [H1 H2]. apply negb_true_iff in H1. cbn [append norm]. rewrite H1. cbn [andb]. rewrite IH by exact H2. reflexivity.
Qed.
Lemma norm_id t : no_cr t -> norm false t = t.
Proof. intros H. pose proof (norm_app t "" H) as K. rewrite app_nil_s in K. rewrite K. cbn [norm]. apply app_nil_s. Qed.
Lemma norm_split t : forall f, exists f', forall u, norm f (t ++ u) = norm f t ++ norm f' u.
Proof.
  induction t as [|c t IH]; intros f; [exists f; reflexivity|]. cbn [append norm]. destruct (Ascii.eqb c CR); [|destruct (f && Ascii.eqb c LF)].
  - destruct (IH true) as (f' & H). exists f'. intros u. rewrite H. reflexivity.
  - destruct (IH false) as (f' & H). exists f'. exact H.
  - destruct (IH false) as (f' & H). exists f'. intros u. rewrite H. reflexivity.
Qed.
Lemma run_no_cr cut t : forall s s', Xml_model.run cut s t = Go s' -> no_cr t.
Proof.
  unfold no_cr. induction t as [|c t IH]; intros s s' H; [reflexivity|]. cbn [Xml_model.run] in H. cbn [all]. destruct (Ascii.eqb c CR) eqn:E; [apply Ascii.eqb_eq in E; subst c; discriminate H|].
  destruct (Xml_model.step cut s c) as [s1| |]; try discriminate. cbn [negb andb]. eapply IH. exact H.
Qed.
Lemma norm_no_cr t : forall f, no_cr (norm f t).
Proof.
  unfold no_cr. induction t as [|c t IH]; intros f; [reflexivity|]. cbn [norm]. destruct (Ascii.eqb c CR) eqn:E; [|destruct (f && Ascii.eqb c LF)]; [cbn [all]; rewrite IH; reflexivity|apply IH|]. cbn [all]. rewrite E, IH. reflexivity.
Qed.
Lemma norm_norm f t : norm false (norm f t) = norm f t.
Proof. apply norm_id, norm_no_cr. Qed.
(** a text on which the reader goes on has no carriage returns *)
Lemma run_norm cut s t s' : Xml_model.run cut s t = Go s' -> Xml_model.run cut s (norm false t) = Go s'.
Proof. intros H. rewrite (norm_id t) by (eapply run_no_cr; exact H). exact H. Qed.
