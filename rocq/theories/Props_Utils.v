(** * C62, C72, C113-C117: options, required columns, dates *)
From Coq Require Import ZArith List Bool String Ascii Lia.
From Verif Require Import Base Num Dict StateM Utils_model Spec_Utils Utils_proofs.
Import ListNotations.
Open Scope string_scope.

(** ** C62: options *)
Section Options.
  Context {V : Type}.
  Definition do_op (op : option_op V) (st : dict V) : dict V :=
    match op with SetOption k v => fst (set_option k v st) | GetOption k => fst (get_option k st) end.
  (** the options after a history; exceptions are caught by the caller *)
  Definition after (yes : V) (h : list (option_op V)) : dict V := fold_left (fun st op => do_op op st) h (default_options yes).

  Lemma after_state yes h : exists v, after yes h = [("warnings", v)] /\ last_value "warnings" yes h v.
  Proof.
    unfold after. induction h as [|op h IH] using rev_ind.
    - exists yes. split; [reflexivity|]. left. split; [reflexivity|]. intros w H. exact H.
    - destruct IH as (v & E & Hl). rewrite fold_left_app. cbn [fold_left]. rewrite E. destruct op as [k w|k].
      + destruct (String.eqb_spec k "warnings") as [-> |Hk].
        * exists w. split; [reflexivity|]. right. exists h, []. split; [reflexivity|]. intros u Hu. exact Hu.
        * exists v. split.
          { cbn [do_op]. unfold set_option. cbn [dget]. destruct (String.eqb_spec k "warnings") as [Hx|_]; [contradiction|]. reflexivity. }
          destruct Hl as [[Hv Hl]|(b & a & Eh & Hl)]; [left|right].
          { split; [exact Hv|]. intros u Hu. apply in_app_or in Hu. destruct Hu as [Hu|[Hu|[]]]; [apply (Hl u Hu)|]. injection Hu. intros. contradiction. }
          { exists b, (app a [SetOption k w]). split; [rewrite Eh; rewrite <- app_assoc; reflexivity|].
            intros u Hu. apply in_app_or in Hu. destruct Hu as [Hu|[Hu|[]]]; [apply (Hl u Hu)|]. injection Hu. intros. contradiction. }
      + exists v. split.
        { cbn [do_op]. unfold get_option. destruct (dget _ k); reflexivity. }
        destruct Hl as [[Hv Hl]|(b & a & Eh & Hl)]; [left|right].
        { split; [exact Hv|]. intros u Hu. apply in_app_or in Hu. destruct Hu as [Hu|[Hu|[]]]; [apply (Hl u Hu)|discriminate]. }
        { exists b, (app a [GetOption k]). split; [rewrite Eh; rewrite <- app_assoc; reflexivity|].
          intros u Hu. apply in_app_or in Hu. destruct Hu as [Hu|[Hu|[]]]; [apply (Hl u Hu)|discriminate]. }
  Qed.

  (** reading the only option gives the value written last *)
  Theorem C62_get_returns_last_set yes h : exists v, snd (get_option "warnings" (after yes h)) = Ok v /\ last_value "warnings" yes h v.
  Proof. destruct (after_state yes h) as (v & E & H). exists v. split; [|exact H]. unfold get_option. rewrite E. reflexivity. Qed.
  (** and this determines it *)
  Theorem C62_last_value_unique yes (h : list (option_op V)) v w : last_value "warnings" yes h v -> last_value "warnings" yes h w -> v = w.
  Proof.
    intros [[-> H]|(b & a & E & H)] [[-> G]|(b' & a' & E' & G)].
    - reflexivity.
    - exfalso. apply (H w). rewrite E'. apply in_or_app. right. left. reflexivity.
    - exfalso. apply (G v). rewrite E. apply in_or_app. right. left. reflexivity.
    - rewrite E in E'. clear E. revert b' E'. induction b as [|x b IH]; intros [|y b'] E'; cbn in E'.
      + injection E' as -> _. reflexivity.
      + injection E' as _ E. exfalso. apply (H w). rewrite E. apply in_or_app. right. left. reflexivity.
      + injection E' as _ E. exfalso. apply (G v). rewrite <- E. apply in_or_app. right. left. reflexivity.
      + injection E' as _ E. apply (IH b' E).
  Qed.
  (** unknown keys: KeyError from both functions at every time, and nothing changes *)
  Theorem C62_unknown_key yes h k v : k <> "warnings" ->
    set_option k v (after yes h) = (after yes h, Err KeyError) /\ get_option k (after yes h) = (after yes h, Err KeyError).
  Proof.
    intros Hk. destruct (after_state yes h) as (u & E & _). unfold set_option, get_option. rewrite E. cbn [dget].
    destruct (String.eqb_spec k "warnings") as [Hx|_]; [contradiction|]. split; reflexivity.
  Qed.
  (** setting the known key always succeeds *)
  Theorem C62_set_known yes h v : snd (set_option "warnings" v (after yes h)) = Ok tt.
  Proof. destruct (after_state yes h) as (u & E & _). unfold set_option. rewrite E. reflexivity. Qed.
End Options.
Example C62_example : snd (get_option "warnings" (after true [SetOption "warnings" false; SetOption "colour" true; GetOption "x"])) = Ok false.
Proof. reflexivity. Qed.

(** ** C113: required columns *)
Section Require.
  Context {S A B : Type} (cols : S -> list string).
  Lemma mem_In c l : mem c l = true <-> In c l.
  Proof.
    unfold mem. rewrite existsb_exists. split.
    - intros (x & Hx & E). apply String.eqb_eq in E. congruence.
    - intros H. exists c. split; [exact H|apply String.eqb_refl].
  Qed.
  (** a history of calls of methods decorated with the same decorator object *)
  Definition call := (A * (A -> SM S B))%type.
  Definition calls (exclude : option (list string)) (h : list call) (st : list string * S) : list string * S :=
    fold_left (fun st c => fst (wrapper_require cols exclude (snd c) (fst c) st)) h st.
  Definition excluded (exclude : option (list string)) (c : string) : Prop := match exclude with Some l => In c l | None => False end.

  Lemma effective exclude h : forall req s c, 
    In c (fst (calls exclude h (req, s))) /\ ~ excluded exclude c <-> In c req /\ ~ excluded exclude c.
  Proof.
    induction h as [|[a f] h IH]; intros req s c; [reflexivity|]. cbn [calls fold_left fst snd]. unfold calls in IH.
    unfold wrapper_require at 2. destruct (check_required_cols _ _); [destruct (f a s) as [s' r]|]; cbn [fst]; rewrite IH; destruct exclude as [[|e l]|]; try reflexivity;
      cbn [excluded]; rewrite filter_In, negb_true_iff; (split; [intros [[H1 H2] H3]; split; assumption|intros [H1 H2]; split; [split; [exact H1|]|exact H2]]);
      destruct (mem c (e :: l)) eqn:E; try reflexivity; exfalso; apply H2, mem_In, E.
  Qed.
  (** After any history of calls, a method runs exactly if every required column that is not
      excluded is present; then its own effect and result are those of the call, and otherwise
      AttributeError is raised and the object is unchanged. *)
  Theorem C113_runs_iff_columns_present exclude req s h (f : A -> SM S B) (a : A) : let st := calls exclude h (req, s) in
    ((forall c, In c req -> ~ excluded exclude c -> In c (cols (snd st))) ->
       snd (fst (wrapper_require cols exclude f a st)) = fst (f a (snd st)) /\ snd (wrapper_require cols exclude f a st) = snd (f a (snd st))) /\
    ((exists c, In c req /\ ~ excluded exclude c /\ ~ In c (cols (snd st))) ->
       snd (fst (wrapper_require cols exclude f a st)) = snd st /\ snd (wrapper_require cols exclude f a st) = Err AttributeError).
  Proof.
    cbv zeta. pose proof (effective exclude h req s) as He. destruct (calls exclude h (req, s)) as [req' s']. cbn [fst snd] in *.
    unfold wrapper_require. set (r2 := match exclude with Some (_ :: _ as ex) => _ | _ => _ end).
    assert (Hr : forall c, In c r2 <-> In c req /\ ~ excluded exclude c).
    { intros c. rewrite <- He. subst r2. destruct exclude as [[|e l]|]; cbn [excluded]; try tauto. rewrite filter_In, negb_true_iff.
      split; intros [H1 H2]; (split; [exact H1|]).
      - intros H. apply mem_In in H. congruence.
      - destruct (mem c (e :: l)) eqn:E; [|reflexivity]. exfalso. apply H2, mem_In, E. }
    split.
    - intros H. assert (E : check_required_cols (cols s') r2 = true).
      { unfold check_required_cols. apply forallb_forall. intros c Hc. apply mem_In. apply Hr in Hc. apply H; tauto. }
      rewrite E. destruct (f a s') as [s2 v]. split; reflexivity.
    - intros (c & H1 & H2 & H3). assert (E : check_required_cols (cols s') r2 = false).
      { destruct (check_required_cols _ _) eqn:E; [|reflexivity]. exfalso. unfold check_required_cols in E. rewrite forallb_forall in E. apply H3, mem_In, E, Hr. tauto. }
      rewrite E. split; reflexivity.
  Qed.
End Require.
Example C113_example :
  let f : unit -> SM (list string) nat := fun _ s => (s, Ok (length s)) in
  let st := calls (fun s => s) (Some ["time"]) [(tt, f); (tt, f)] (["magnitude"; "time"], ["magnitude"; "depth"]) in
  snd (wrapper_require (fun s => s) (Some ["time"]) f tt st) = Ok 2%nat /\
  snd (wrapper_require (fun s => s) None f tt (["magnitude"; "time"], ["magnitude"; "depth"])) = Err AttributeError.
Proof. split; reflexivity. Qed.

(** ** C72, C114-C117: dates *)
Section Dates.
  Variables (wy wmo wd wh wmi ws : nat) (y mo d h mi s : Z).
  Definition widths_ok := (1 <= wy <= 4)%nat /\ (1 <= wmo <= 2)%nat /\ (1 <= wd <= 2)%nat /\ (1 <= wh <= 2)%nat /\ (1 <= wmi <= 2)%nat /\ (1 <= ws <= 2)%nat.
  Definition all_fit := fits wy y /\ fits wmo mo /\ fits wd d /\ fits wh h /\ fits wmi mi /\ fits ws s.
  Let txt := date_text wy wmo wd wh wmi ws y mo d h mi s.
  Let padded := (zeros (4 - wy) ++ numeral wy y) ++ "-" ++ numeral wmo mo ++ "-" ++ numeral wd d ++ "T" ++ numeral wh h ++ ":" ++ numeral wmi mi ++ ":" ++ numeral ws s.

  Ltac nochar := repeat (rewrite has_char_app || cbn [has_char append]); rewrite ?numeral_no_char, ?zeros_no_char by reflexivity; cbn [orb]; reflexivity.
  Lemma pad_year_text tail : has_char "T" tail = false -> widths_ok -> pad_year (txt ++ tail) = Ok (padded ++ tail).
  Proof.
    intros Ht Hw. unfold txt, date_text, pad_year.
    replace ((numeral wy y ++ "-" ++ numeral wmo mo ++ "-" ++ numeral wd d ++ "T" ++ numeral wh h ++ ":" ++ numeral wmi mi ++ ":" ++ numeral ws s) ++ tail)
      with ((numeral wy y ++ "-" ++ numeral wmo mo ++ "-" ++ numeral wd d) ++ String "T" (numeral wh h ++ ":" ++ numeral wmi mi ++ ":" ++ numeral ws s ++ tail))
      by (rewrite !app_assoc_s; cbn [append]; rewrite ?app_assoc_s; reflexivity).
    assert (E : has_char "T" ((numeral wy y ++ "-" ++ numeral wmo mo ++ "-" ++ numeral wd d) ++ String "T" (numeral wh h ++ ":" ++ numeral wmi mi ++ ":" ++ numeral ws s ++ tail)) = true).
    { rewrite has_char_app. cbn [has_char]. rewrite Ascii.eqb_refl. apply orb_true_r. }
    rewrite E. rewrite split_app by nochar.
    rewrite split_none.
    2:{ repeat (rewrite has_char_app || cbn [has_char append]); rewrite ?numeral_no_char by reflexivity. rewrite Ht. reflexivity. }
    cbn [append]. rewrite split_app by nochar. rewrite split_app by nochar. rewrite split_none by nochar.
    cbn [join append]. f_equal. unfold padded. rewrite numeral_length.
    assert (E2 : (if (wy <? 4)%nat then zfill4 (numeral wy y) else numeral wy y) = zeros (4 - wy) ++ numeral wy y).
    { destruct (Nat.ltb_spec wy 4).
      - apply zfill_numeral. apply Hw.
      - replace (4 - wy)%nat with 0%nat by lia. reflexivity. }
    rewrite E2. rewrite ?app_assoc_s. cbn [append]. rewrite ?app_assoc_s. cbn [append]. rewrite ?app_assoc_s. reflexivity.
  Qed.
  Lemma strptime_text : widths_ok -> all_fit -> valid_date y mo d -> valid_time h mi s -> strptime padded = Ok (mkdt y mo d h mi s 0).
  Proof.
    intros (W1 & W2 & W3 & W4 & W5 & W6) (F1 & F2 & F3 & F4 & F5 & F6) Hd Ht. unfold strptime, padded.
    replace ((zeros (4 - wy) ++ numeral wy y) ++ "-" ++ numeral wmo mo ++ "-" ++ numeral wd d ++ "T" ++ numeral wh h ++ ":" ++ numeral wmi mi ++ ":" ++ numeral ws s)
      with (((zeros (4 - wy) ++ numeral wy y) ++ "-" ++ numeral wmo mo ++ "-" ++ numeral wd d) ++ String "T" (numeral wh h ++ ":" ++ numeral wmi mi ++ ":" ++ numeral ws s))
      by (rewrite ?app_assoc_s; cbn [append]; rewrite ?app_assoc_s; cbn [append]; rewrite ?app_assoc_s; reflexivity).
    rewrite split_T_app by nochar. cbn [append].
    rewrite split_app by nochar. rewrite split_app by nochar. rewrite split_none by nochar.
    rewrite split_app by nochar. rewrite split_app by nochar. rewrite split_none by nochar.
    destruct Hd as [Hy (n & Hn & Hd)]. pose proof (days_in_month_spec _ _ _ Hn) as [E Hmo].
    assert (n <= 31)%Z. { rewrite <- E. unfold days_in_month. repeat destruct (_ =? _)%Z; cbn; try lia; destruct (leap y); lia. }
    destruct Ht as (Hh & Hmi & Hs).
    assert (E1 : field 4 4 0 9999 (zeros (4 - wy) ++ numeral wy y) = Some y).
    { unfold field. rewrite length_app_s, zeros_length, numeral_length. replace (4 - wy + wy)%nat with 4%nat by lia. cbn [Nat.leb andb].
      rewrite number_zeros, number_numeral by exact F1. replace (0 * 10 ^ Z.of_nat wy + y)%Z with y by lia. leb_true. reflexivity. }
    assert (E3 : day_field (numeral wd d) = Some d).
    { transitivity (field 1 2 1 31 (numeral wd d)); [|apply field_numeral; [lia|exact F3|lia]]. unfold day_field.
      destruct (numeral_head wd d ltac:(lia)) as (c & t & e & En & Hc). rewrite En. destruct c as [[] [] [] [] [] [] [] []]; try reflexivity; discriminate Hc. }
    rewrite E1, E3. rewrite !field_numeral by first [assumption|lia].
    apply make_datetime_ok; [|unfold valid_time; lia|lia]. split; [exact Hy|]. exists n. split; assumption.
  Qed.
  Lemma text_no_char c : digit c = None -> ceqb "-" c = false -> ceqb "T" c = false -> ceqb ":" c = false -> has_char c txt = false.
  Proof.
    intros H1 H2 H3 H4. unfold txt, date_text. repeat (rewrite has_char_app || cbn [has_char append]); rewrite ?numeral_no_char by exact H1. rewrite H2, H3, H4. reflexivity.
  Qed.
  (** Whatever follows a point or a Z is ignored; the year may have fewer than four digits and
      the other fields one digit. *)
  Lemma cut_suffix suffix : (suffix = "" \/ (exists r, suffix = String "." r) \/ (exists r, suffix = String "Z" r)) ->
    head (split "." (head (split "Z" (txt ++ suffix)))) = txt.
  Proof.
    intros Hs. rewrite head_split_app by (apply text_no_char; reflexivity). rewrite head_split_app by (apply text_no_char; reflexivity).
    assert (E : head (split "." (head (split "Z" suffix))) = "").
    { destruct Hs as [-> |[[r ->]|[r ->]]]; [reflexivity| |reflexivity]. cbn. destruct (split "Z" r); reflexivity. }
    rewrite E. apply app_nil_r_s.
  Qed.
  Theorem C72_dates_are_parsed suffix : widths_ok -> all_fit -> valid_date y mo d -> valid_time h mi s ->
    (suffix = "" \/ (exists r, suffix = String "." r) \/ (exists r, suffix = String "Z" r)) ->
    robust_parse_datetime (DString (txt ++ suffix)) = Ok (Some (mkdt y mo d h mi s 0)).
  Proof.
    intros Hw Hf Hd Ht Hs. unfold robust_parse_datetime. rewrite (cut_suffix suffix Hs).
    pose proof (pad_year_text "" eq_refl Hw) as E. rewrite !app_nil_r_s in E. rewrite E. cbn [rbind].
    rewrite (strptime_text Hw Hf Hd Ht). reflexivity.
  Qed.
  (** C116 (refuted): a time zone offset written directly after the seconds is an error, not
      ignored, whatever the date *)
  Theorem C116_offset_without_fraction_refuted hh mm : widths_ok -> fits 2 hh -> fits 2 mm ->
    robust_parse_datetime (DString (txt ++ "+" ++ numeral 2 hh ++ ":" ++ numeral 2 mm)) = Err ValueError.
  Proof.
    intros Hw H1 H2. unfold robust_parse_datetime.
    assert (E : head (split "." (head (split "Z" (txt ++ "+" ++ numeral 2 hh ++ ":" ++ numeral 2 mm)))) = txt ++ "+" ++ numeral 2 hh ++ ":" ++ numeral 2 mm).
    { rewrite (split_none "Z"); [cbn [head]; rewrite (split_none "."); [reflexivity|]|].
      - rewrite has_char_app, text_no_char by reflexivity. nochar.
      - rewrite has_char_app, text_no_char by reflexivity. nochar. }
    rewrite E, pad_year_text; [|nochar|exact Hw]. cbn [rbind].
    unfold strptime, padded.
    replace (((zeros (4 - wy) ++ numeral wy y) ++ "-" ++ numeral wmo mo ++ "-" ++ numeral wd d ++ "T" ++ numeral wh h ++ ":" ++ numeral wmi mi ++ ":" ++ numeral ws s) ++ "+" ++ numeral 2 hh ++ ":" ++ numeral 2 mm)
      with (((zeros (4 - wy) ++ numeral wy y) ++ "-" ++ numeral wmo mo ++ "-" ++ numeral wd d) ++ String "T" (numeral wh h ++ String ":" (numeral wmi mi ++ String ":" ((numeral ws s ++ "+" ++ numeral 2 hh) ++ String ":" (numeral 2 mm)))))
      by (rewrite ?app_assoc_s; cbn [append]; rewrite ?app_assoc_s; cbn [append]; rewrite ?app_assoc_s; cbn [append]; rewrite ?app_assoc_s; reflexivity).
    rewrite split_T_app by nochar. cbn [append].
    rewrite split_app by nochar. rewrite split_app by nochar. rewrite split_none by nochar.
    rewrite split_app by nochar. rewrite split_app by nochar. rewrite split_app by nochar. rewrite split_none by nochar. reflexivity.
  Qed.
End Dates.

(** C115: a parsed text gives a date that exists, with no fraction of a second *)
Theorem C115_parsed_dates_exist x t : robust_parse_datetime (DString x) = Ok (Some t) ->
  valid_date (dt_year t) (dt_month t) (dt_day t) /\ valid_time (dt_hour t) (dt_minute t) (dt_second t) /\ dt_micro t = 0%Z.
Proof.
  cbn [robust_parse_datetime]. destruct (pad_year _) as [p|e]; [cbn [rbind]|discriminate]. unfold strptime.
  destruct (split_T p) as [[a b]|]; [|discriminate].
  destruct (split "-" a) as [|y [|mo [|d [|? ?]]]]; try discriminate. destruct (split ":" b) as [|h [|mi [|s [|? ?]]]]; try discriminate.
  destruct (field 4 4 0 9999 y) as [y'|]; [|discriminate]. destruct (field 1 2 1 12 mo) as [mo'|]; [|discriminate]. destruct (day_field d) as [d'|]; [|discriminate].
  destruct (field 1 2 0 23 h) as [h'|]; [|discriminate]. destruct (field 1 2 0 59 mi) as [mi'|]; [|discriminate]. destruct (field 1 2 0 61 s) as [s'|]; [|discriminate].
  destruct (make_datetime y' mo' d' h' mi' s' 0) as [t'|e] eqn:E; [|discriminate]. cbn [rbind]. intros H. injection H as <-.
  apply make_datetime_inv in E. destruct E as (-> & H1 & H2). cbn. auto.
Qed.
(** missing values stay missing and dates are kept as they are *)
Theorem C115_missing_and_dates : robust_parse_datetime DMissing = Ok None /\ forall d, robust_parse_datetime (DDatetime d) = Ok (Some d).
Proof. split; reflexivity. Qed.
(** C114 (refuted): the fraction of a second is lost entirely: two different instants within one
    second are parsed to the same date *)
Theorem C114_fraction_kept_refuted y mo d h mi s us us' : valid_date y mo d -> valid_time h mi s -> fits 6 us -> fits 6 us' ->
  fits 4 y -> fits 2 mo -> fits 2 d ->
  robust_parse_datetime (DString (iso_text y mo d h mi s ++ "." ++ numeral 6 us)) = Ok (Some (mkdt y mo d h mi s 0)) /\
  robust_parse_datetime (DString (iso_text y mo d h mi s ++ "." ++ numeral 6 us)) = robust_parse_datetime (DString (iso_text y mo d h mi s ++ "." ++ numeral 6 us')).
Proof.
  intros Hd Ht _ _ F1 F2 F3. assert (W : widths_ok 4 2 2 2 2 2) by (unfold widths_ok; lia).
  assert (F : all_fit 4 2 2 2 2 2 y mo d h mi s). { unfold all_fit, fits in *. destruct Ht as (? & ? & ?). change (10 ^ Z.of_nat 2)%Z with 100%Z. repeat split; try (apply F1); try (apply F2); try (apply F3); lia. }
  unfold iso_text. rewrite !C72_dates_are_parsed by (try assumption; right; left; eexists; reflexivity). split; reflexivity.
Qed.
Example C72_example :
  robust_parse_datetime (DString "816-1-01T5:07:09.123456789+01:00") = Ok (Some (mkdt 816 1 1 5 7 9 0)) /\
  widths_ok 3 1 2 1 2 2 /\ all_fit 3 1 2 1 2 2 816 1 1 5 7 9 /\ valid_date 816 1 1 /\ valid_time 5 7 9 /\
  date_text 3 1 2 1 2 2 816 1 1 5 7 9 ++ ".123456789+01:00" = "816-1-01T5:07:09.123456789+01:00" /\
  robust_parse_datetime (DString "2020-02-30T00:00:00Z") = Err ValueError /\
  robust_parse_datetime (DString "2020-02-29T00:00:00Z") = Ok (Some (mkdt 2020 2 29 0 0 0 0)) /\
  robust_parse_datetime (DString "2020-02-29 00:00:00") = Err ValueError.
Proof.
  split; [reflexivity|]. split; [unfold widths_ok; lia|]. split; [unfold all_fit, fits; cbn; lia|].
  split; [|split; [unfold valid_time; lia|repeat split]]. split; [lia|]. exists 31%Z. split; [right; right; cbn; split; [tauto|reflexivity]|lia].
Qed.

Print Assumptions C62_get_returns_last_set.
Print Assumptions C113_runs_iff_columns_present.
Print Assumptions C72_dates_are_parsed.
Print Assumptions C116_offset_without_fraction_refuted.
Print Assumptions C115_parsed_dates_exist.
Print Assumptions C114_fraction_kept_refuted.
