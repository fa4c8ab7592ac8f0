(** * C100: where time, place and identifiers of a record come from *)
From Coq Require Import List Bool String Ascii Lia ZArith QArith Permutation.
From Verif Require Import Base Dict QuakeML_model Spec_QuakeML QuakeML_proofs Props_QuakeML Props_QuakeML2.
Import ListNotations.
Open Scope string_scope.

(** ** Specification *)
Definition with_error (f c : string) := [(f ++ "value", c); (f ++ "uncertainty", c ++ "_uncertainty"); (f ++ "lowerUncertainty", c ++ "_lowerUncertainty");
  (f ++ "upperUncertainty", c ++ "_upperUncertainty"); (f ++ "confidenceLevel", c ++ "_confidenceLevel")].
Definition origin_columns := app (with_error "origintime" "time") (app (with_error "originlatitude" "latitude") (app (with_error "originlongitude" "longitude")
  (app (with_error "origindepth" "depth") [("originevaluationMode", "evaluationmode"); ("originpublicID", "originID")]))).
Definition quality_columns := map (fun k => ("originquality" ++ fst k, snd k))
  [("associatedPhaseCount", "associatedphasecount"); ("usedPhaseCount", "usedphasecount"); ("associatedStationCount", "associatedstationcount");
   ("usedStationCount", "usedstationcount"); ("depthPhaseCount", "depthphasecount"); ("standardError", "standarderror"); ("azimuthalGap", "azimuthalgap");
   ("secondaryAzimuthalGap", "secondaryazimuthalgap"); ("maximumDistance", "maximumdistance"); ("minimumDistance", "minimumdistance"); ("medianDistance", "mediandistance")].

(** the fields of the origin with the preferred id (the first such) *)
Definition origin_id (e : event) : option string := field (event_fields strip e) "preferredOriginID".
Definition the_origin (e : event) (o : list (string * string)) : Prop :=
  exists i, origin_id e = Some i /\ first_with (fun f => field f "originpublicID" = Some i) (origin_fields strip e) o.

Lemma secondary_keys_any l : forall out x k, extract_secondary out l = Ok x -> dget x k <> None -> dget out k <> None \/ exists s, k = ("magnitude_" ++ s)%string.
Proof.
  induction l as [|m l IH]; intros out x k H Hk; cbn [extract_secondary] in H; [injection H as <-; left; exact Hk|].
  destruct (getitem m "magnitudetype") as [ty|]; cbn [rbind] in H; [|discriminate]. destruct (IH _ _ k H Hk) as [K|K]; [|right; exact K].
  destruct (in_dec String.string_dec k (map snd (secondary_mappings ty))) as [I|I]; [|left; rewrite extract_other in K by exact I; exact K].
  right. destruct ty as [t|]; [rewrite secondary_targets in I; apply in_map_iff in I; destruct I as (s & <- & _); eexists; reflexivity|].
  cbn in I. repeat destruct I as [I|I]; try (subst k; eexists; reflexivity); destruct I.
Qed.
Lemma nodup_origin : NoDup (map snd (app origin_mappings quality_mappings)).
Proof. cbn. repeat (constructor; [cbn; intuition discriminate|]). constructor. Qed.

Lemma extract_app d a b out : extract_into out (app a b) d = extract_into (extract_into out a d) b d.
Proof. unfold extract_into. apply fold_left_app. Qed.
Lemma nodup_o : NoDup (map snd origin_mappings).
Proof. cbn. repeat (constructor; [cbn; intuition discriminate|]). constructor. Qed.

(** [r] has in column [c] what [x] shows *)
Theorem C100_origin : forall tf tm so ia iq e r, Forall child_ok (ev_children e) -> parse_quakeml tf tm so ia iq (ser_doc (DEvent e)) = Ok [r] ->
  dget r "eventID" = Some (field (event_fields strip e) "publicID") /\ dget r "event_type" = Some (field (event_fields strip e) "type") /\
  (forall o k c, the_origin e o -> In (k, c) (app origin_columns (if iq then quality_columns else [])) -> dget r c = option_map Some (field o k)) /\
  ((forall o, ~ the_origin e o) -> forall k c, In (k, c) (app origin_columns quality_columns) -> dget r c = None \/ dget r c = Some None) /\
  (iq = false -> forall k c, In (k, c) quality_columns -> dget r c = None).
Proof.
  intros tf tm so ia iq e r Hok H. destruct (C54_fields tf tm so ia iq e Hok) as (ev & origins & mags & A & O & B & E). rewrite E in H. clear E.
  destruct (parse_to_dict _ _ _ _ _ _ _ _) as [r'|] eqn:P; cbn in H; [|discriminate]. injection H as ->.
  unfold parse_to_dict in P. destruct (select_origin_by_id origins (get_default ev "preferredOriginID")) as [[po ro]|] eqn:S; cbn [rbind] in P; [|discriminate].
  destruct (select_magnitude_by_id mags _) as [[pm kept]|]; cbn [rbind] in P; [|discriminate].
  destruct (match kept with [] => Ok [] | _ => if ia then select_secondary_magnitudes tf tm so kept else Ok [] end) as [sel|]; cbn [rbind] in P; [|discriminate].
  destruct (extract_secondary [] sel) as [sec|] eqn:X; cbn [rbind] in P; [|discriminate]. assert (P' := f_equal (fun x => match x with Ok y => y | Err _ => r end) P); cbv beta iota in P'; clear P; rename P' into P.
  assert (Hget : forall k, prefix "magnitude" k = false -> dget r k = match dget (extract_origin po iq) k with Some v => Some v | None => dget (map (fun kv => (snd kv, get_default ev (fst kv))) event_mappings) k end).
  { intros k Hk. rewrite <- P. rewrite dget_dupdate by (eapply secondary_nd; [exact X|constructor]). destruct (dget sec k) eqn:D.
    - exfalso. destruct (secondary_keys_any sel [] sec k X) as [K|(s & ->)]; [rewrite D; discriminate|cbn in K; congruence|discriminate Hk].
    - rewrite main_keys. assert (dget (extract_magnitude pm) k = None) as ->; [|reflexivity]. unfold extract_magnitude. rewrite extract_other; [reflexivity|].
      intros I. cbn in I. repeat destruct I as [I|I]; try (subst k; discriminate Hk); destruct I. }
  assert (Horig : forall k, ~ In k (map snd (app origin_mappings quality_mappings)) -> dget (extract_origin po iq) k = None).
  { intros k Hk. rewrite map_app, in_app_iff in Hk. unfold extract_origin. destruct iq; rewrite ?extract_other by tauto; reflexivity. }
  assert (Hev : forall k c, In (k, c) event_mappings -> dget r c = Some (field (event_fields strip e) k)).
  { intros k c Hkc. assert (Q : dget (map (fun kv => (snd kv, get_default ev (fst kv))) event_mappings : pd) c = Some (get_default ev k)) by (cbn in Hkc; destruct Hkc as [I|[I|[]]]; injection I as <- <-; reflexivity).
    rewrite Hget by (cbn in Hkc; destruct Hkc as [I|[I|[]]]; injection I as <- <-; reflexivity). rewrite Horig by (cbn in Hkc; destruct Hkc as [I|[I|[]]]; injection I as <- <-; cbn; intuition discriminate).
    rewrite Q. unfold get_default. rewrite (A k). destruct (field _ _); reflexivity. }
  split; [apply Hev; left; reflexivity|]. split; [apply Hev; right; left; reflexivity|].
  assert (Hpre : forall k c, In (k, c) (app origin_columns quality_columns) -> prefix "magnitude" c = false /\ dget (map (fun kv => (snd kv, get_default ev (fst kv))) event_mappings : pd) c = None).
  { intros k c I. cbn in I. repeat destruct I as [I|I]; try (injection I as <- <-; split; reflexivity). destruct I. }
  assert (Hmap : origin_columns = origin_mappings /\ quality_columns = quality_mappings) by (split; reflexivity). destruct Hmap as [Mo Mq].
  assert (Hval : forall k c, In (k, c) (app origin_columns (if iq then quality_columns else [])) -> dget r c = dget po k).
  { intros k c I. assert (I' : In (k, c) (app origin_columns quality_columns)). { apply in_app_iff in I. apply in_app_iff. destruct I as [I|I]; [left; exact I|right; destruct iq; [exact I|destruct I]]. }
    destruct (Hpre k c I') as [P1 P2]. rewrite Hget by exact P1. rewrite P2. rewrite Mo, Mq in *. pose proof nodup_origin as ND. unfold extract_origin. destruct iq.
    - assert (G : dget (extract_into (extract_into [] origin_mappings po) quality_mappings po) c = match dget po k with Some v => Some v | None => None end).
      { rewrite <- extract_app. exact (extract_get (app origin_mappings quality_mappings) po k c [] ND I'). }
      rewrite G. destruct (dget po k); reflexivity.
    - rewrite app_nil_r in I. rewrite (extract_get origin_mappings po k c [] nodup_o I). cbn [dget]. destruct (dget po k); reflexivity. }
  assert (Hid : get_default ev "preferredOriginID" = origin_id e) by (unfold get_default, origin_id; rewrite (A "preferredOriginID"); destruct (field _ _); reflexivity).
  assert (HP : (exists o, the_origin e o /\ shows po o /\ (forall o', the_origin e o' -> o' = o)) \/ (po = dummy_origin /\ forall o, ~ the_origin e o)).
  { unfold select_origin_by_id in S. destruct (find_id "originpublicID" origins (get_default ev "preferredOriginID")) as [found|] eqn:F; cbn [rbind] in S; [|discriminate]. apply find_id_ok in F. rewrite Hid in *.
    destruct (filter_res _ origins) as [rest|]; cbn [rbind] in S; [|discriminate]. assert (S' := f_equal (fun x => match x with Ok y => fst y | Err _ => po end) S). cbn [fst] in S'. clear S.
    assert (Huniq : forall i l a b, first_with (fun f => field f "originpublicID" = Some i) l a -> first_with (fun f => field f "originpublicID" = Some i) l b -> a = b).
    { clear. intros i l p q (a1 & a2 & E1 & P1 & N1) (b1 & b2 & E2 & P2 & N2). rewrite E1 in E2. clear E1. revert b1 E2 N2. induction a1 as [|x a1 IH]; intros [|y b1] E N2; cbn in *; injection E as E0 E.
      + congruence.
      + subst y. exfalso. exact (N2 p (or_introl eq_refl) P1).
      + subst x. exfalso. exact (N1 q (or_introl eq_refl) P2).
      + apply (IH (fun z Hz => N1 z (or_intror Hz)) b1 E (fun z Hz => N2 z (or_intror Hz))). }
    destruct found as [o|].
    - left. subst po. destruct F as (l1 & l2 & El & F1 & F2). rewrite El in O. apply Forall2_app_inv_l in O. destruct O as (f1 & f2' & O1 & O2 & Ef). inversion O2 as [|? f ? f2 Sf O2' Eq1 Eq2]. subst.
      destruct (origin_id e) as [i|] eqn:Ei; [|rewrite (Sf "originpublicID") in F1; destruct (field f _); discriminate F1].
      assert (T : the_origin e f).
      { exists i. split; [exact Ei|]. exists f1, f2. split; [exact Ef|]. split; [rewrite (Sf "originpublicID") in F1; destruct (field f _); cbn in F1; congruence|].
        intros y Hy K. clear -O1 F2 Hy K. induction O1 as [|a b l l' Hab _ IH]; [destruct Hy|]. destruct Hy as [->|Hy]; [|apply IH; [intros z Hz; apply F2; right; exact Hz|exact Hy]].
        apply (F2 a (or_introl eq_refl)). rewrite (Hab "originpublicID"), K. reflexivity. }
      exists f. split; [exact T|]. split; [exact Sf|]. intros o' (i' & Ei' & To'). destruct T as (i'' & Ei'' & T). rewrite Ei in Ei', Ei''. injection Ei' as <-. injection Ei'' as <-. exact (Huniq i _ _ _ To' T).
    - right. split; [symmetry; exact S'|]. intros o (i & Ei & l1 & l2 & El & K & _). assert (Io : In o (origin_fields strip e)) by (rewrite El; apply in_app_iff; right; left; reflexivity).
      assert (exists d, In d origins /\ shows d o) as (d & Id & Sd). { clear -O Io. induction O as [|a b l l' Hab _ IH]; [destruct Io|]. destruct Io as [->|Io]; [exists a; split; [left; reflexivity|exact Hab]|]. destruct (IH Io) as (d & X & Y). exists d. split; [right; exact X|exact Y]. }
      apply (F d Id). rewrite (Sd "originpublicID"), K, Ei. reflexivity. }
  split; [|split].
  - intros o k c Ho I. destruct HP as [(o0 & T0 & S0 & U0)|[_ N0]]; [|destruct (N0 o Ho)]. rewrite (U0 o Ho), (Hval k c I). exact (S0 k).
  - intros Hno k c I. destruct HP as [(o0 & T0 & _)|[-> _]]; [destruct (Hno o0 T0)|]. destruct (Hpre k c I) as [P1 P2]. apply in_app_iff in I. destruct (in_dec (fun a b : string * string => ltac:(decide equality; apply String.string_dec)) (k, c) (app origin_columns (if iq then quality_columns else []))) as [J|J].
    + rewrite (Hval k c J). clear. unfold dummy_origin. cbn [dget]. repeat (destruct (k =? _)%string; [right; reflexivity|]). left; reflexivity.
    + left. rewrite Hget by exact P1. rewrite P2. destruct I as [I|I]; [exfalso; apply J, in_app_iff; left; exact I|]. destruct iq; [exfalso; apply J, in_app_iff; right; exact I|].
      unfold extract_origin. rewrite extract_other; [reflexivity|]. clear -I. cbn in I. repeat destruct I as [I|I]; try (injection I as <- <-; cbn; intuition discriminate); destruct I.
  - intros -> k c I. destruct (Hpre k c (proj2 (in_app_iff _ _ _) (or_intror I))) as [P1 P2]. rewrite Hget by exact P1. rewrite P2. unfold extract_origin. rewrite extract_other; [reflexivity|]. clear -I. cbn in I. repeat destruct I as [I|I]; try (injection I as <- <-; cbn; intuition discriminate); destruct I.
Qed.
Print Assumptions C100_origin.

(** an event with two origins *)
Definition org (id t : string) : child := Origin [("publicID", id)] [PElem "time" [] [PElem "value" [] [PText [t]]]; PElem "quality" [] [PElem "azimuthalGap" [] [PText ["120"]]]].
Definition sample100 : event := mkevent [("publicID", "e1")] [Plain (PElem "preferredOriginID" [] [PText ["o2"]]); org "o1" "2020"; org "o2" "2021"; Plain (PElem "type" [] [PText ["earthquake"]])].
Example sample100_record : exists r, parse_quakeml tf1 tm1 (fun l => l) true true (ser_doc (DEvent sample100)) = Ok [r] /\
  dget r "eventID" = Some (Some "e1") /\ dget r "event_type" = Some (Some "earthquake") /\ dget r "time" = Some (Some "2021") /\ dget r "azimuthalgap" = Some (Some "120").
Proof. eexists. split; [vm_compute; reflexivity|]. repeat split. Qed.
Example sample100_ok : Forall child_ok (ev_children sample100) /\ exists o, the_origin sample100 o.
Proof. split; [repeat constructor|]. eexists. exists "o2". split; [reflexivity|]. eexists [_], []. split; [reflexivity|]. split; [reflexivity|]. intros y [<-|[]]. discriminate. Qed.
