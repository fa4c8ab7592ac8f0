(** * C60, C150, C151: exporting a catalogue to QuakeML and reading it back *)
From Coq Require Import List Bool String Ascii Lia ZArith QArith Permutation.
From Verif Require Import Base Dict Utils_model QuakeML_model Spec_QuakeML QuakeML_proofs Props_QuakeML Props_QuakeML2 Props_QuakeML3 Spec_Export Export_model Export_proofs.
Import ListNotations.
Open Scope string_scope.

(** ** the parser succeeds *)
Lemma filter_res_total {A} (f : A -> res bool) l : (forall x, In x l -> exists b, f x = Ok b) -> exists r, filter_res f l = Ok r /\ incl r l.
Proof.
  induction l as [|x l IH]; intros H; [exists []; split; [reflexivity|apply incl_refl]|]. destruct (H x (or_introl eq_refl)) as (b & E). destruct IH as (r & Er & Ir); [intros; apply H; right; assumption|].
  cbn [filter_res]. rewrite E. cbn [rbind]. rewrite Er. cbn [rbind]. eexists. split; [reflexivity|]. destruct b; [intros y [<-|Hy]; [left; reflexivity|right; auto]|apply incl_tl; exact Ir].
Qed.
Lemma find_id_total key l id : (forall x, In x l -> dget x key <> None) -> exists r, find_id key l id = Ok r /\ (forall m, r = Some m -> In m l).
Proof.
  induction l as [|x l IH]; intros H; [exists None; split; [reflexivity|discriminate]|]. cbn [find_id]. unfold getitem. destruct (dget x key) as [v|] eqn:E; [|destruct (H x (or_introl eq_refl) E)]. cbn [rbind].
  destruct (oeqb id v); [exists (Some x); split; [reflexivity|intros m [= <-]; left; reflexivity]|]. destruct IH as (r & Er & Ir); [intros; apply H; right; assumption|]. exists r. split; [exact Er|]. intros m Hm. right. auto.
Qed.
Lemma filter_res_nodup {A} (f : A -> res bool) l : forall r (g : A -> option string), filter_res f l = Ok r -> NoDup (map g l) -> NoDup (map g r).
Proof.
  induction l as [|x l IH]; intros r g H ND; cbn in H; [injection H as <-; constructor|]. destruct (f x) as [b|]; cbn in H; [|discriminate]. destruct (filter_res f l) as [r'|] eqn:E; cbn in H; [|discriminate]. injection H as <-.
  cbn in ND. inversion_clear ND as [|? ? N1 N2]. specialize (IH r' g eq_refl N2). destruct b; [|exact IH]. cbn. constructor; [|exact IH]. intros K. apply N1. apply in_map_iff in K. destruct K as (y & Ey & Hy). apply in_map_iff. exists y. split; [exact Ey|].
  apply filter_res_ok in E. destruct E as [_ ->]. apply filter_In in Hy. tauto.
Qed.
Definition gtype (m : pd) : option string := match dget m "magnitudetype" with Some t => t | None => None end.
Lemma map_res_types l : (forall m, In m l -> dget m "magnitudetype" <> None) -> map_res (fun m => getitem m "magnitudetype") l = Ok (map gtype l).
Proof.
  induction l as [|m l IH]; intros H; [reflexivity|]. cbn [map_res map]. rewrite IH by (intros; apply H; right; assumption). unfold getitem, gtype. destruct (dget m "magnitudetype") eqn:E; [reflexivity|destruct (H m (or_introl eq_refl) E)].
Qed.
Lemma distinct_id l : NoDup l -> distinct l = l.
Proof.
  induction 1 as [|x l Hx _ IH]; [reflexivity|]. cbn. destruct (existsb (oeqb x) l) eqn:E; [|rewrite IH; reflexivity]. apply existsb_exists in E. destruct E as (y & Hy & E). apply oeqb_eq in E. subst. contradiction.
Qed.
Lemma parse_total tf tm so ia iq ev origins mags :
  (forall o, In o origins -> dget o "originpublicID" <> None) -> (forall m, In m mags -> dget m "magnitudetype" <> None /\ dget m "magnitudepublicID" <> None) -> NoDup (map gtype mags) ->
  exists r, parse_to_dict tf tm so ia iq ev origins mags = Ok r.
Proof.
  intros HO HM ND. unfold parse_to_dict, select_origin_by_id. destruct (find_id_total "originpublicID" origins (get_default ev "preferredOriginID") HO) as (fo & -> & _). cbn [rbind].
  match goal with |- context [filter_res ?f origins] => destruct (filter_res_total f origins) as (ro & -> & _) end.
  { intros o Ho. unfold getitem. destruct (dget o "originpublicID") eqn:E; [eexists; reflexivity|destruct (HO o Ho E)]. }
  cbn [rbind]. unfold select_magnitude_by_id. destruct (find_id_total "magnitudepublicID" mags (get_default ev "preferredMagnitudeID") (fun m Hm => proj2 (HM m Hm))) as (fm & -> & Hfm). cbn [rbind].
  set (pref := match fm with Some m => m | None => dummy_magnitude end). assert (Hpref : dget pref "magnitudetype" <> None) by (unfold pref; destruct fm as [m|]; [apply (HM m (Hfm m eq_refl))|discriminate]).
  match goal with |- context [filter_res ?f mags] => destruct (filter_res_total f mags) as (km & Ek & Ik) end.
  { intros m Hm. unfold getitem. destruct (dget m "magnitudetype") eqn:E; [|destruct (proj1 (HM m Hm) E)]. cbn [rbind]. destruct (dget pref "magnitudetype") eqn:E1; [|contradiction]. cbn [rbind]. destruct (negb _); [eexists; reflexivity|].
    destruct (dget m "magnitudepublicID") eqn:E2; [eexists; reflexivity|destruct (proj2 (HM m Hm) E2)]. }
  rewrite Ek. cbn [rbind]. assert (NDk : NoDup (map gtype km)) by (eapply filter_res_nodup; [exact Ek|exact ND]).
  assert (Hk : forall m, In m km -> dget m "magnitudetype" <> None) by (intros m Hm; apply HM, Ik, Hm).
  assert (Hsel : exists sel, match km with [] => Ok [] | _ => if ia then select_secondary_magnitudes tf tm so km else Ok [] end = Ok sel /\ incl sel km).
  { destruct km as [|m0 km0]; [exists []; split; [reflexivity|apply incl_refl]|]. destruct ia; [|exists []; split; [reflexivity|intros ? []]]. exists (m0 :: km0). split; [|apply incl_refl].
    unfold select_secondary_magnitudes. rewrite (map_res_types _ Hk). cbn [rbind]. rewrite (distinct_id _ NDk), map_length, Nat.eqb_refl. reflexivity. }
  destruct Hsel as (sel & -> & Isel). cbn [rbind].
  assert (Hx : forall l out, (forall m, In m l -> dget m "magnitudetype" <> None) -> exists x, extract_secondary out l = Ok x).
  { induction l as [|m l IH]; intros out H; [eexists; reflexivity|]. cbn [extract_secondary]. unfold getitem. destruct (dget m "magnitudetype") eqn:E; [|destruct (H m (or_introl eq_refl) E)]. cbn [rbind]. apply IH. intros; apply H; right; assumption. }
  destruct (Hx sel [] (fun m Hm => Hk m (Isel m Hm))) as (x & ->). cbn [rbind]. eexists. reflexivity.
Qed.

(** ** One event *)
Definition good_row (columns : list string) (row : dict val) : Prop :=
  (forall c, In c columns <-> dget row c <> None) /\ (forall c s, dget row c = Some (Val s) -> presentable s) /\
  (forall t, dget row "magnitude_type" = Some (Val t) -> tidy t).
Lemma mem_iff c l : mem c l = true <-> In c l.
Proof. unfold mem. rewrite existsb_exists. split; [intros (x & Hx & E); apply String.eqb_eq in E; congruence|intros H; exists c; split; [exact H|apply String.eqb_refl]]. Qed.
Lemma lookup2_fine row ks : (forall c s, dget row c = Some (Val s) -> presentable s) -> (forall c, In c ks -> exists T e, ordinary T /\ In e endings /\ c = "magnitude_" ++ T ++ e) ->
  forall acc, (forall T k, fine (lookup2 acc T k)) -> forall T k, fine (lookup2 (fold_left (add_sec (dget row "magnitude_type") row) ks acc) T k).
Proof.
  intros Hrow. induction ks as [|c ks IH]; intros Hks acc Hacc; [exact Hacc|]. cbn [fold_left]. apply IH; [intros; apply Hks; right; assumption|].
  destruct (add_sec_eq row acc c (Hks c (or_introl eq_refl))) as (T' & e' & _ & _ & _ & ->). destruct (kept row c); [|exact Hacc].
  intros T k s. rewrite lookup2_put2. destruct (_ && _); [|apply Hacc]. intros [= E]. destruct (dget row c) as [v|] eqn:D; [|discriminate]. subst v. exact (Hrow c s D).
Qed.
Lemma dget_In {V} (d : dict V) k v : NoDup (map fst d) -> In (k, v) d -> dget d k = Some v.
Proof.
  induction d as [|[a b] d IH]; intros ND Hin; [destruct Hin|]. inversion_clear ND as [|? ? N1 N2]. cbn. destruct Hin as [E|Hin]; [injection E as -> ->; rewrite String.eqb_refl; reflexivity|].
  destruct (String.eqb_spec k a) as [->|]; [|auto]. exfalso. apply N1. apply (in_map fst) in Hin. exact Hin.
Qed.

Section Event.
  Variable int_text : string -> string.
  Variables agencyID author : string.
  Variable columns : list string.
  Variable fresh : string -> string.
  Variable row : dict val.
  Hypothesis Hint : forall s, presentable (int_text s).
  Hypothesis Hfresh : forall c, presentable (fresh c).
  Hypothesis Hgood : good_row columns row.
  Hypothesis Hreg : regular columns.
  Hypothesis Htype : In "magnitude_type" columns.
  Let get c := if mem c (secondary_keys columns) then None else dget row c.
  Let id c := id_of_row columns fresh row c.
  Let e := export_event int_text agencyID author columns fresh row.
  Let sec := secondary_of columns row.

  Lemma ks_regular c : In c (secondary_keys columns) -> exists T e, ordinary T /\ In e endings /\ c = "magnitude_" ++ T ++ e.
  Proof. intros H. apply secondary_keys_ok in H. destruct H as [H1 H2]. destruct (Hreg c H1 H2) as (T & e0 & [HT _] & He & E). exists T, e0. auto. Qed.
  Lemma get_row c : contains "magnitude_" c && negb (existsb (fun v => contains v c) detail_columns) = false -> get c = dget row c.
  Proof.
    intros H. unfold get. destruct (mem c (secondary_keys columns)) eqn:M; [|reflexivity]. apply mem_iff in M. unfold secondary_keys in M. apply filter_In in M. destruct M as [_ M]. congruence.
  Qed.
  Lemma get_fine c : fine (get c).
  Proof. intros s. unfold get. destruct (mem _ _); [discriminate|]. apply (proj1 (proj2 Hgood)). Qed.
  Lemma id_written c : exists s, presentable s /\ text_of (id c) = s /\ written (id c) = Some s.
  Proof.
    unfold id, id_of_row. destruct (mem c columns) eqn:M; [|exists (fresh c); auto]. apply mem_iff in M. apply (proj1 Hgood) in M. destruct (dget row c) as [[| |s]|] eqn:D; [exists "nan"|exists "None"|exists s|congruence]; cbn; (split; [|auto]).
    - split; [discriminate|reflexivity].
    - split; [discriminate|reflexivity].
    - exact (proj1 (proj2 Hgood) c s D).
  Qed.
  Lemma id_fine c : fine (id c).
  Proof. intros s H. destruct (id_written c) as (s' & P & E & _). rewrite H in E. cbn in E. subst s'. exact P. Qed.
  Lemma type_written : exists t, presentable t /\ tidy t /\ written (dget row "magnitude_type") = Some t /\ text_of (get "magnitude_type") = t.
  Proof.
    rewrite get_row by reflexivity. apply (proj1 Hgood) in Htype. destruct (dget row "magnitude_type") as [[| |s]|] eqn:D; [exists "nan"|exists "None"|exists s|congruence].
    - split; [split; [discriminate|reflexivity]|]. split; [split; [reflexivity|cbn; intuition discriminate]|auto].
    - split; [split; [discriminate|reflexivity]|]. split; [split; [reflexivity|cbn; intuition discriminate]|auto].
    - split; [exact (proj1 (proj2 Hgood) _ s D)|]. split; [exact (proj2 (proj2 Hgood) s D)|auto].
  Qed.
  Definition sec_fields (tm : string * dict val) := mag_fields agencyID author (dget (snd tm) "magnitude_magnitudeID") (dget (snd tm)) (fst tm) (id "originID").
  Lemma mags_eq : magnitude_fields strip e = mag_fields agencyID author (id "magnitudeID") get (text_of (get "magnitude_type")) (id "originID") :: map sec_fields sec.
  Proof.
    assert (H : forall l, flat_map (fun c => match c with Magnitude a ch => [node_fields strip "magnitude" a ch] | _ => [] end) (map (fun tm => magnitude_node agencyID author (dget (snd tm) "magnitude_magnitudeID") (dget (snd tm)) (fst tm) (id_of_row columns fresh row "originID")) l) = map sec_fields l).
    { induction l as [|x l IH]; [reflexivity|]. cbn [map flat_map]. rewrite IH. reflexivity. }
    unfold magnitude_fields, e, export_event. cbn [ev_children]. rewrite !flat_map_app, H. cbn [flat_map origin_node magnitude_node app]. rewrite app_nil_r. reflexivity.
  Qed.
  Lemma origins_eq : origin_fields strip e = [org_fields int_text agencyID author (id "originID") get].
  Proof.
    assert (H : forall l, flat_map (fun c => match c with Origin a ch => [node_fields strip "origin" a ch] | _ => [] end) (map (fun tm => magnitude_node agencyID author (dget (snd tm) "magnitude_magnitudeID") (dget (snd tm)) (fst tm) (id_of_row columns fresh row "originID")) l) = []) by (induction l as [|x l IH]; [reflexivity|exact IH]).
    unfold origin_fields, e, export_event. cbn [ev_children]. rewrite !flat_map_app, H. reflexivity.
  Qed.
  Definition event_table : table := [("publicID", Some (text_of (id "eventID"))); ("preferredOriginID", written (id "originID")); ("preferredMagnitudeID", written (id "magnitudeID")); ("type", written (get "event_type"))].
  Lemma event_tab k : no_info "" k -> values (event_fields strip e) k = tab event_table k.
  Proof.
    intros K. unfold event_fields, e, export_event. cbn [ev_attrs ev_children]. rewrite public_one, values_app. cbn [app flat_map]. rewrite values_app, values_info' by exact K. rewrite flat_map_app, values_app.
    assert (forall l, flat_map (fun c => match c with Plain p => texts strip "" p | _ => [] end) (map (fun tm => magnitude_node agencyID author (dget (snd tm) "magnitude_magnitudeID") (dget (snd tm)) (fst tm) (id_of_row columns fresh row "originID")) l) = []) as -> by (induction l as [|x l IH]; [reflexivity|exact IH]).
    cbn [flat_map app magnitude_node origin_node]. change (values [] k) with (@nil string). cbn [app]. rewrite !values_app. change (values [] k) with (@nil string). rewrite app_nil_r.
    pose proof (id_fine "originID") as F1. pose proof (id_fine "magnitudeID") as F2. unfold id in F1, F2. rewrite !texts_leaf by (assumption || apply get_fine). unfold event_table. cbn [append]. rewrite <- values_pair_tab, <- !values_written_tab. change (tab [] k) with (@nil string). rewrite app_nil_r. reflexivity.
  Qed.
  Lemma sec_nodup : NoDup (map fst sec).
  Proof. apply (sec_types row (secondary_keys columns) [] ks_regular). constructor. Qed.
  Lemma sec_in T : In T (map fst sec) <-> exists e, ordinary T /\ In e endings /\ In ("magnitude_" ++ T ++ e) (secondary_keys columns) /\ kept row ("magnitude_" ++ T ++ e) = true.
  Proof. destruct (sec_types row (secondary_keys columns) [] ks_regular) as [_ H]; [constructor|]. unfold sec, secondary_of. rewrite (H T). cbn. tauto. Qed.
  Lemma sec_fine x k : In x sec -> fine (dget (snd x) k).
  Proof.
    intros Hx. destruct x as [T d]. cbn [snd]. assert (dget d k = lookup2 sec T k) as -> by (unfold lookup2; rewrite (dget_In sec T d sec_nodup Hx); reflexivity).
    apply (lookup2_fine row (secondary_keys columns) (proj1 (proj2 Hgood)) ks_regular). intros ? ? ? ?. discriminate.
  Qed.

  (** the document is well formed *)
  Definition oks (l : list plain) : Prop := fold_right (fun c r => plain_ok c /\ r) True l.
  Lemma oks_app a b : oks a -> oks b -> oks (app a b).
  Proof. induction a as [|x a IH]; [intros _ H; exact H|]. cbn. intros [H1 H2] H3. split; [exact H1|apply IH; assumption]. Qed.
  Lemma oks_opt tag v : reserved tag = false -> oks (opt_leaf tag v).
  Proof. intros H. destruct v as [[| |s]|]; cbn; tauto. Qed.
  Lemma oks_real g c : oks (real_value g c).
  Proof. apply oks_app; apply oks_opt; reflexivity. Qed.
  Lemma mag_ok i g ty o : child_ok (magnitude_node agencyID author i g ty o).
  Proof.
    cbn [child_ok magnitude_node]. repeat apply Forall_cons; try apply Forall_nil.
    - cbn. tauto.
    - split; [reflexivity|apply oks_real].
    - cbn. tauto.
    - cbn. tauto.
  Qed.
  Lemma event_ok : Forall child_ok (ev_children e).
  Proof.
    unfold e, export_event. cbn [ev_children]. apply Forall_app. split; [apply Forall_cons; [cbn; tauto|apply Forall_cons; [apply mag_ok|apply Forall_nil]]|]. apply Forall_app. split.
    - apply Forall_forall. intros x Hx. apply in_map_iff in Hx. destruct Hx as (y & <- & _). apply mag_ok.
    - apply Forall_cons; [|repeat (apply Forall_cons; [cbn; tauto|]); apply Forall_nil]. cbn [child_ok origin_node]. repeat apply Forall_cons; try apply Forall_nil; try (cbn; tauto); try (split; [reflexivity|apply oks_real]).
      split; [reflexivity|]. apply oks_app.
      + unfold int_counts. cbn [flat_map fst snd]. repeat (apply oks_app; [apply oks_opt; reflexivity|]). exact I.
      + unfold measures. cbn [flat_map fst snd]. repeat (apply oks_app; [apply oks_opt; reflexivity|]). exact I.
  Qed.
  Lemma mag_field i g ty o k v : fine (g "magnitude") -> fine (g "magnitude_uncertainty") -> presentable ty -> fine o -> In (k, v) (mag_table i g ty o) -> field (mag_fields agencyID author i g ty o) k = v.
  Proof.
    intros F1 F2 F3 F4 Hin. apply field_opt. rewrite mag_tab by (try assumption; cbn in Hin; repeat destruct Hin as [Hin|Hin]; try (injection Hin as <- <-; split; discriminate); destruct Hin).
    apply tab_get; [|exact Hin]. cbn. repeat (constructor; [cbn; intuition discriminate|]). constructor.
  Qed.
  Lemma mag_field_none i g ty o k : fine (g "magnitude") -> fine (g "magnitude_uncertainty") -> presentable ty -> fine o -> In k ["magnitudemaglowerUncertainty"; "magnitudemagupperUncertainty"; "magnitudemagconfidenceLevel"] -> field (mag_fields agencyID author i g ty o) k = None.
  Proof.
    intros F1 F2 F3 F4 Hin. apply field_opt. rewrite mag_tab by (try assumption; cbn in Hin; repeat destruct Hin as [Hin|Hin]; try (subst k; split; discriminate); destruct Hin).
    apply tab_none. cbn in *. intuition (subst; discriminate).
  Qed.
  Lemma org_field k v : In (k, v) (org_table int_text (id "originID") get) -> field (org_fields int_text agencyID author (id "originID") get) k = v.
  Proof.
    intros Hin. apply field_opt. rewrite org_tab; [|apply get_fine|exact Hint|].
    - apply tab_get; [|exact Hin]. cbn. repeat (constructor; [cbn; intuition discriminate|]). constructor.
    - apply (in_map fst) in Hin. cbn in Hin. repeat destruct Hin as [Hin|Hin]; try (subst k; split; discriminate); destruct Hin.
  Qed.
  Lemma org_field_none k : In k ["origintimeuncertainty"; "origintimelowerUncertainty"; "origintimeupperUncertainty"; "origintimeconfidenceLevel"; "originlatitudelowerUncertainty"; "originlatitudeupperUncertainty"; "originlatitudeconfidenceLevel";
      "originlongitudelowerUncertainty"; "originlongitudeupperUncertainty"; "originlongitudeconfidenceLevel"; "origindepthlowerUncertainty"; "origindepthupperUncertainty"; "origindepthconfidenceLevel"] ->
    field (org_fields int_text agencyID author (id "originID") get) k = None.
  Proof.
    intros Hin. apply field_opt. rewrite org_tab; [|apply get_fine|exact Hint|].
    - apply tab_none. intros K. cbn in K. cbn in Hin. repeat destruct Hin as [Hin|Hin]; try (subst k; repeat destruct K as [K|K]; try discriminate K; destruct K); destruct Hin.
    - cbn in Hin. repeat destruct Hin as [Hin|Hin]; try (subst k; split; discriminate); destruct Hin.
  Qed.
  Lemma event_field k v : In (k, v) event_table -> field (event_fields strip e) k = v.
  Proof.
    intros Hin. apply field_opt. rewrite event_tab by (cbn in Hin; repeat destruct Hin as [Hin|Hin]; try (injection Hin as <- <-; split; discriminate); destruct Hin).
    apply tab_get; [|exact Hin]. cbn. repeat (constructor; [cbn; intuition discriminate|]). constructor.
  Qed.
  Lemma main_field k v : In (k, v) (mag_table (id "magnitudeID") get (text_of (get "magnitude_type")) (id "originID")) -> field (mag_fields agencyID author (id "magnitudeID") get (text_of (get "magnitude_type")) (id "originID")) k = v.
  Proof. destruct type_written as (t & P & _ & _ & E). rewrite E. apply mag_field; try apply get_fine; try apply id_fine; exact P. Qed.
  Lemma sec_type x : In x sec -> ordinary (fst x) /\ presentable (fst x).
  Proof.
    intros Hx. apply (in_map fst) in Hx. apply sec_in in Hx. destruct Hx as (e0 & HT & He & Hk & _). split; [exact HT|]. split; [apply HT|]. apply secondary_keys_ok in Hk. destruct Hk as [H1 H2].
    destruct (Hreg _ H1 H2) as (T' & e1 & [HT' Hs] & He1 & E). destruct (column_inj (fst x) e0 T' e1) as [<- _]; try assumption; try apply HT; try apply HT'.
  Qed.
  Lemma sec_field x k v : In x sec -> In (k, v) (mag_table (dget (snd x) "magnitude_magnitudeID") (dget (snd x)) (fst x) (id "originID")) -> field (sec_fields x) k = v.
  Proof. intros Hx. apply mag_field; try apply sec_fine; try apply id_fine; try assumption. apply sec_type, Hx. Qed.
  Lemma types_tidy : tidy_types e.
  Proof.
    intros f t Hf Ht. rewrite mags_eq in Hf. destruct Hf as [<-|Hf].
    - rewrite (main_field "magnitudetype" _ (or_intror (or_intror (or_intror (or_introl eq_refl))))) in Ht. injection Ht as <-. destruct type_written as (t' & _ & T & _ & ->). exact T.
    - apply in_map_iff in Hf. destruct Hf as (x & <- & Hx). rewrite (sec_field x "magnitudetype" _ Hx (or_intror (or_intror (or_intror (or_introl eq_refl))))) in Ht. injection Ht as <-. apply ordinary_tidy. apply sec_type. exact Hx.
  Qed.
  (** no secondary magnitude has the preferred type *)
  Lemma sec_not_main x : In x sec -> written (dget row "magnitude_type") <> Some (fst x).
  Proof.
    intros Hx K. apply (in_map fst) in Hx. apply sec_in in Hx. destruct Hx as (e0 & HT & He & _ & Hk). unfold kept in Hk. destruct (dget row ("magnitude_" ++ fst x ++ e0)) as [[| |s]|]; try discriminate. destruct (dget row "magnitude_type") as [[| |t]|]; try discriminate.
    cbn in K. injection K as ->. rewrite (proj2 (contains_occurs (fst x) ("magnitude_" ++ fst x ++ e0))) in Hk; [discriminate|]. exists "magnitude_", e0. reflexivity.
  Qed.

  Variables (tf : option string -> res Q) (tm : option string -> res Z) (so : list (option string) -> list (option string)) (iq : bool).
  Hypothesis Hso : arranges so.
  Lemma event_parses : exists r, parse_quakeml tf tm so true iq (ser_doc (DEvent e)) = Ok [r].
  Proof.
    destruct (C54_fields tf tm so true iq e event_ok) as (ev & origins & mags & A & O & B & ->). rewrite origins_eq in O. rewrite mags_eq in B.
    inversion O as [|o ? ? ? So O' E1 E2]; subst. inversion O'; subst. clear O O'. inversion B as [|m ? ms ? Sm B' E1 E2]; subst. clear B.
    destruct (parse_total tf tm so true iq ev [o] (m :: ms)) as (r & ->); [| | |exists r; reflexivity].
    - intros o' [<-|[]]. rewrite (So "originpublicID"), (org_field "originpublicID" _ (or_introl eq_refl)). discriminate.
    - intros m' [<-|Hm'].
      + rewrite (Sm "magnitudetype"), (Sm "magnitudepublicID"), (main_field "magnitudetype" _ (or_intror (or_intror (or_intror (or_introl eq_refl))))), (main_field "magnitudepublicID" _ (or_introl eq_refl)). split; discriminate.
      + destruct (shows_in _ _ _ B' Hm') as (f & Hf & Sf). apply in_map_iff in Hf. destruct Hf as (x & <- & Hx).
        rewrite (Sf "magnitudetype"), (Sf "magnitudepublicID"), (sec_field x "magnitudetype" _ Hx (or_intror (or_intror (or_intror (or_introl eq_refl))))), (sec_field x "magnitudepublicID" _ Hx (or_introl eq_refl)). split; discriminate.
    - assert (G : map gtype ms = map (fun x => Some (fst x)) sec).
      { assert (K : forall l fs, Forall2 shows l fs -> forall xs, fs = map sec_fields xs -> incl xs sec -> map gtype l = map (fun x => Some (fst x)) xs).
        { induction 1 as [|d f l fs Hd HF IH]; intros xs E Hi; [destruct xs; [reflexivity|discriminate]|]. destruct xs as [|x xs]; [discriminate|]. cbn [map] in E. injection E as -> ->. cbn [map]. rewrite (IH xs eq_refl) by (intros y Hy; apply Hi; right; exact Hy). f_equal.
          unfold gtype. rewrite (Hd "magnitudetype"), (sec_field x "magnitudetype" _ (Hi x (or_introl eq_refl)) (or_intror (or_intror (or_intror (or_introl eq_refl))))). reflexivity. }
        exact (K ms _ B' sec eq_refl (incl_refl _)). }
      cbn [map]. rewrite G. constructor.
      + intros Hin. apply in_map_iff in Hin. destruct Hin as (x & E & Hx). unfold gtype in E. rewrite (Sm "magnitudetype"), (main_field "magnitudetype" _ (or_intror (or_intror (or_intror (or_introl eq_refl))))) in E. cbn in E. destruct type_written as (t & _ & _ & W & E'). rewrite E' in E. apply (sec_not_main x Hx). congruence.
      + pose proof sec_nodup as ND. clear -ND. induction sec as [|x l IH]; [constructor|]. cbn in *. inversion_clear ND as [|? ? N1 N2]. constructor; [|apply IH; exact N2]. intros K. apply in_map_iff in K. destruct K as (y & E & Hy). injection E as E. apply N1. rewrite <- E. apply in_map. exact Hy.
  Qed.

  Lemma preferred_text : preferred_id e = Some (text_of (id "magnitudeID")).
  Proof. unfold preferred_id. rewrite (event_field "preferredMagnitudeID" _ (or_intror (or_intror (or_introl eq_refl)))). destruct (id_written "magnitudeID") as (s & _ & -> & W). exact W. Qed.
  Lemma first_one {A} (P : A -> Prop) x l y : P x -> first_with P (x :: l) y -> y = x.
  Proof. intros Hx (l1 & l2 & E & _ & H). destruct l1 as [|z l1]; cbn in E; injection E as E0 _; [congruence|]. subst z. destruct (H x (or_introl eq_refl) Hx). Qed.
  Lemma first_head {A} (P : A -> Prop) x l : P x -> first_with P (x :: l) x.
  Proof. intros H. exists [], l. split; [reflexivity|]. split; [exact H|intros ? []]. Qed.

  Lemma surv_iff c : In c (secondary_keys columns) /\ kept row c = true <-> survives columns row c.
  Proof.
    rewrite secondary_keys_ok. unfold survives, known, kept. destruct (dget row c) as [[| |v]|]; try (split; [intros [_ K]; discriminate|intros (_ & _ & (? & K) & _); discriminate]).
        destruct (dget row "magnitude_type") as [[| |tt0]|]; try (split; [intros [_ K]; discriminate|intros (_ & _ & _ & (? & K & _)); discriminate]). rewrite negb_true_iff, <- not_true_iff_false, contains_occurs. split.
        - intros [[A1 A2] A3]. split; [exact A1|]. split; [exact A2|]. split; [exists v; reflexivity|exists tt0; auto].
        - intros (A1 & A2 & _ & (t' & E & A3)). injection E as <-. auto.
  Qed.
  Lemma event_back r : parse_quakeml tf tm so true iq (ser_doc (DEvent e)) = Ok [r] -> comes_back int_text iq columns row r.
  Proof.
    intros Hr.
    (* the origin *)
    destruct (C100_origin tf tm so true iq e r event_ok Hr) as (Eev & Ety & Hor & _ & Hnq).
    rewrite (event_field "publicID" _ (or_introl eq_refl)) in Eev. rewrite (event_field "type" _ (or_intror (or_intror (or_intror (or_introl eq_refl))))) in Ety.
    assert (Ho : the_origin e (org_fields int_text agencyID author (id "originID") get)).
    { exists (text_of (id "originID")). split.
      - unfold origin_id. rewrite (event_field "preferredOriginID" _ (or_intror (or_introl eq_refl))). destruct (id_written "originID") as (s & _ & -> & W). exact W.
      - rewrite origins_eq. apply first_head. apply (org_field "originpublicID"). left. reflexivity. }
    pose proof (fun k c => Hor _ k c Ho) as HO. clear Hor.
    assert (HOv : forall k c v, In (k, c) (app origin_columns (if iq then quality_columns else [])) -> In (k, v) (org_table int_text (id "originID") get) -> dget r c = option_map Some v).
    { intros k c v H1 H2. rewrite (HO k c H1), (org_field k v H2). reflexivity. }
    assert (HOc : forall k c, In (k, c) origin_columns -> In (k, c) (app origin_columns (if iq then quality_columns else []))) by (intros; apply in_app_iff; left; assumption).
    assert (HOn : forall k c, In (k, c) origin_columns -> In k ["origintimeuncertainty"; "origintimelowerUncertainty"; "origintimeupperUncertainty"; "origintimeconfidenceLevel"; "originlatitudelowerUncertainty"; "originlatitudeupperUncertainty"; "originlatitudeconfidenceLevel";
      "originlongitudelowerUncertainty"; "originlongitudeupperUncertainty"; "originlongitudeconfidenceLevel"; "origindepthlowerUncertainty"; "origindepthupperUncertainty"; "origindepthconfidenceLevel"] -> dget r c = None).
    { intros k c H1 H2. rewrite (HO k c (HOc k c H1)), (org_field_none k H2). reflexivity. }
    (* the preferred magnitude *)
    destruct (C55_preferred tf tm so true iq e r Hso event_ok types_tidy Hr) as (mags & B & HP). rewrite mags_eq in B. inversion B as [|m ? ms ? Sm B' E1 E2]; subst. clear B.
    assert (Hid : id_of m (preferred_id e)) by (red; rewrite preferred_text, (Sm "magnitudepublicID"), (main_field "magnitudepublicID" _ (or_introl eq_refl)); reflexivity).
    assert (HM : forall k c v, In (k, c) preferred_columns -> In (k, v) (mag_table (id "magnitudeID") get (text_of (get "magnitude_type")) (id "originID")) -> dget r c = option_map Some v).
    { intros k c v H1 H2. rewrite (proj1 (HP k c H1) m (first_head _ m ms Hid)), (Sm k), (main_field k v H2). reflexivity. }
    assert (HMn : forall k c, In (k, c) preferred_columns -> In k ["magnitudemaglowerUncertainty"; "magnitudemagupperUncertainty"; "magnitudemagconfidenceLevel"] -> dget r c = None).
    { intros k c H1 H2. rewrite (proj1 (HP k c H1) m (first_head _ m ms Hid)), (Sm k). destruct type_written as (t & P & _ & _ & E). rewrite E. rewrite mag_field_none; [reflexivity|apply get_fine|apply get_fine|exact P|apply id_fine|exact H2]. }
    (* the secondary magnitudes *)
    destruct (C55_secondary tf tm so true iq e r Hso event_ok types_tidy Hr) as (mags2 & B2 & HS). rewrite mags_eq in B2. inversion B2 as [|m2 ? ms2 ? Sm2 B2' E1 E2]; subst. clear B2.
    destruct type_written as (t & Pt & Tt & Wt & Et).
    assert (Tm : type_of m t) by (red; rewrite (Sm "magnitudetype"), (main_field "magnitudetype" _ (or_intror (or_intror (or_intror (or_introl eq_refl))))), Et; reflexivity).
    assert (Hid2 : id_of m2 (preferred_id e)) by (red; rewrite preferred_text, (Sm2 "magnitudepublicID"), (main_field "magnitudepublicID" _ (or_introl eq_refl)); reflexivity).
    assert (Tm2 : type_of m2 t) by (red; rewrite (Sm2 "magnitudetype"), (main_field "magnitudetype" _ (or_intror (or_intror (or_intror (or_introl eq_refl))))), Et; reflexivity).
    assert (Hms2 : forall d T, In d ms2 -> type_of d T -> exists x, In x sec /\ fst x = T /\ shows d (sec_fields x)).
    { intros d T Hd HdT. destruct (shows_in _ _ _ B2' Hd) as (f & Hf & Sf). apply in_map_iff in Hf. destruct Hf as (x & <- & Hx). exists x. split; [exact Hx|]. split; [|exact Sf].
      red in HdT. rewrite (Sf "magnitudetype"), (sec_field x "magnitudetype" _ Hx (or_intror (or_intror (or_intror (or_introl eq_refl))))) in HdT. cbn in HdT. congruence. }
    assert (Hsx : forall x, In x sec -> exists d, In d ms2 /\ type_of d (fst x)).
    { intros x Hx. assert (K : forall l fs, Forall2 shows l fs -> forall f, In f fs -> exists d, In d l /\ shows d f).
      { induction 1 as [|a b l l' Hab _ IH]; intros f Hf; [destruct Hf|]. destruct Hf as [<-|Hf]; [exists a; split; [left; reflexivity|exact Hab]|]. destruct (IH f Hf) as (d & D1 & D2). exists d. split; [right; exact D1|exact D2]. }
      destruct (K _ _ B2' (sec_fields x) (in_map sec_fields sec x Hx)) as (d & Hd & Sd). exists d. split; [exact Hd|]. red. rewrite (Sd "magnitudetype"), (sec_field x "magnitudetype" _ Hx (or_intror (or_intror (or_intror (or_introl eq_refl))))). reflexivity. }
    assert (HSown : forall k s, In (k, s) Props_QuakeML2.columns -> dget r ("magnitude_" ++ t ++ s) = dget m2 k).
    { intros k s Hks. destruct (HS t Tt) as (H1 & _ & _). cbv zeta in H1. destruct (H1 eq_refl m2 (first_head _ m2 ms2 Hid2) Tm2) as (l & c & El & Hn & Hv). rewrite (Hv k s Hks). f_equal.
      assert (Hc : In c l) by (destruct Hn as (l1 & l2 & -> & _); apply in_app_iff; right; left; reflexivity). rewrite El in Hc. apply filter_In in Hc. destruct Hc as [[<-|Hc] Hf]; [reflexivity|]. exfalso.
      apply andb_true_iff in Hf. destruct Hf as [Hf _]. unfold has_type in Hf. destruct (dget c "magnitudetype") as [[t'|]|] eqn:D; try discriminate. apply String.eqb_eq in Hf. subst t'. destruct (Hms2 c t Hc D) as (x & Hx & Ex & _). apply (sec_not_main x Hx). rewrite Ex. exact Wt. }
    assert (HSsec : forall T k s, ordinary T -> t <> T -> In (k, s) Props_QuakeML2.columns ->
      (exists d, In (T, d) sec /\ dget r ("magnitude_" ++ T ++ s) = option_map Some (field (sec_fields (T, d)) k)) \/ ((forall d, ~ In (T, d) sec) /\ dget r ("magnitude_" ++ T ++ s) = None)).
    { intros T k s HT HtT Hks. destruct (HS T (ordinary_tidy T HT)) as (_ & H2 & H3). cbv zeta in H2, H3. destruct (in_dec string_dec T (map fst sec)) as [Hin|Hout].
      - left. apply in_map_iff in Hin. destruct Hin as ([T' d] & E & Hd). cbn in E. subst T'. exists d. split; [exact Hd|]. destruct (Hsx (T, d) Hd) as (md & Hmd & Tmd). cbn in Tmd.
        destruct (H2 eq_refl) as (l & c & El & Hn & Hv).
        { exists md. split; [right; exact Hmd|exact Tmd]. }
        { intros p Hp K. rewrite (first_one (fun x => id_of x (preferred_id e)) _ _ _ Hid2 Hp) in K. red in K, Tm2. congruence. }
        rewrite (Hv k s Hks). assert (Hc : In c l) by (destruct Hn as (l1 & l2 & -> & _); apply in_app_iff; right; left; reflexivity). rewrite El in Hc. apply filter_In in Hc. destruct Hc as [Hc Hf].
        unfold has_type in Hf. destruct (dget c "magnitudetype") as [[t'|]|] eqn:D; try discriminate. apply String.eqb_eq in Hf. subst t'. destruct Hc as [<-|Hc]; [red in Tm2; congruence|].
        destruct (Hms2 c T Hc D) as ([T' d'] & Hx & Ex & Sc). cbn in Ex. subst T'. assert (d' = d) by (apply (dget_In sec T d' sec_nodup) in Hx; apply (dget_In sec T d sec_nodup) in Hd; congruence). subst d'. exact (Sc k).
      - right. split; [intros d Hd; apply Hout; apply (in_map fst) in Hd; exact Hd|]. apply (fun P => H3 (or_introl P) k s Hks). intros d [Hd|Hd] Td.
        + subst d. red in Td, Tm2. congruence.
        + destruct (Hms2 d T Hd Td) as (x & Hx & Ex & _). apply Hout. rewrite <- Ex. apply in_map. exact Hx. }
    assert (Hcell : forall T s, ordinary T -> In s endings -> let c := "magnitude_" ++ T ++ s in
      (survives columns row c -> lookup2 sec T ("magnitude" ++ s) = dget row c /\ In T (map fst sec)) /\ (~ survives columns row c -> lookup2 sec T ("magnitude" ++ s) = None)).
    { intros T s HT Hs c. unfold sec, secondary_of. rewrite (sec_lookup row (secondary_keys columns) [] ks_regular T s HT Hs). fold c. change (lookup2 [] T ("magnitude" ++ s)) with (@None val). fold (mem c (secondary_keys columns)).
      assert (EQ : mem c (secondary_keys columns) && kept row c = true <-> survives columns row c) by (rewrite andb_true_iff, mem_iff; apply surv_iff).
      split; intros H.
      - rewrite (proj2 EQ H). split; [reflexivity|]. apply sec_in. exists s. pose proof (proj2 EQ H) as K. apply andb_true_iff in K. destruct K as [K1 K2]. apply mem_iff in K1. auto.
      - destruct (_ && _); [destruct (H (proj1 EQ eq_refl))|reflexivity]. }
    split.
    - intros c Hc. unfold number_columns in Hc. cbn [In] in Hc. repeat destruct Hc as [<-|Hc]; [..|destruct Hc].
      + rewrite <- (get_row "longitude") by reflexivity. apply (HOv "originlongitudevalue"); [apply HOc; cbn; tauto|cbn; tauto].
      + rewrite <- (get_row "latitude") by reflexivity. apply (HOv "originlatitudevalue"); [apply HOc; cbn; tauto|cbn; tauto].
      + rewrite <- (get_row "depth") by reflexivity. apply (HOv "origindepthvalue"); [apply HOc; cbn; tauto|cbn; tauto].
      + rewrite <- (get_row "magnitude") by reflexivity. apply (HM "magnitudemagvalue"); cbn; tauto.
      + rewrite <- (get_row "longitude_uncertainty") by reflexivity. apply (HOv "originlongitudeuncertainty"); [apply HOc; cbn; tauto|cbn; tauto].
      + rewrite <- (get_row "latitude_uncertainty") by reflexivity. apply (HOv "originlatitudeuncertainty"); [apply HOc; cbn; tauto|cbn; tauto].
      + rewrite <- (get_row "depth_uncertainty") by reflexivity. apply (HOv "origindepthuncertainty"); [apply HOc; cbn; tauto|cbn; tauto].
      + rewrite <- (get_row "magnitude_uncertainty") by reflexivity. apply (HM "magnitudemaguncertainty"); cbn; tauto.
    - rewrite <- (get_row "time") by reflexivity. apply (HOv "origintimevalue"); [apply HOc; cbn; tauto|cbn; tauto].
    - rewrite <- (get_row "evaluationmode") by reflexivity. apply (HOv "originevaluationMode"); [apply HOc; cbn; tauto|cbn; tauto].
    - rewrite Wt, <- Et. apply (HM "magnitudetype" "magnitude_type" (Some (text_of (get "magnitude_type")))); cbn; tauto.
    - rewrite <- (get_row "event_type") by reflexivity. exact Ety.
    - intros c Hc. assert (E : dget r c = Some (Some (text_of (id c)))).
      { unfold id_columns in Hc. cbn [In] in Hc. repeat destruct Hc as [<-|Hc]; [..|destruct Hc].
        - exact Eev.
        - apply (HOv "originpublicID" "originID" (Some (text_of (id "originID")))); [apply HOc; cbn; tauto|cbn; tauto].
        - apply (HM "magnitudepublicID" "magnitudeID" (Some (text_of (id "magnitudeID")))); cbn; tauto. }
      rewrite E. destruct (id_written c) as (s & Ps & Es & Ws). rewrite Es. split.
      + intros Hin. assert (id c = dget row c) as <- by (unfold id, id_of_row; rewrite (proj2 (mem_iff c columns) Hin); reflexivity). rewrite Ws. reflexivity.
      + intros _. exists s. split; [apply Ps|reflexivity].
    - intros c Hc. unfold measure_columns in Hc. cbn [In] in Hc. destruct iq.
      + repeat destruct Hc as [<-|Hc]; [..|destruct Hc]; (rewrite <- get_row by reflexivity).
        * apply (HOv "originqualitystandardError"); cbn; tauto.
        * apply (HOv "originqualityazimuthalGap"); cbn; tauto.
        * apply (HOv "originqualitysecondaryAzimuthalGap"); cbn; tauto.
        * apply (HOv "originqualitymaximumDistance"); cbn; tauto.
        * apply (HOv "originqualityminimumDistance"); cbn; tauto.
        * apply (HOv "originqualitymedianDistance"); cbn; tauto.
      + repeat destruct Hc as [<-|Hc]; [..|destruct Hc]; (eapply (Hnq eq_refl); cbn; tauto).
    - intros c Hc. unfold count_columns in Hc. cbn [In] in Hc. assert (HI : forall v, option_map Some (shown (int_of int_text v)) = match v with Some (Val s) => Some (Some (int_text s)) | Some VNone => Some (Some "0") | _ => None end) by (intros [[| |s]|]; reflexivity).
      destruct iq.
      + repeat destruct Hc as [<-|Hc]; [..|destruct Hc]; (rewrite <- get_row by reflexivity); rewrite <- HI.
        * apply (HOv "originqualityassociatedPhaseCount"); cbn; tauto.
        * apply (HOv "originqualityusedPhaseCount"); cbn; tauto.
        * apply (HOv "originqualityassociatedStationCount"); cbn; tauto.
        * apply (HOv "originqualityusedStationCount"); cbn; tauto.
        * apply (HOv "originqualitydepthPhaseCount"); cbn; tauto.
      + repeat destruct Hc as [<-|Hc]; [..|destruct Hc]; (eapply (Hnq eq_refl); cbn; tauto).
    - intros T e0 HT He. rewrite Wt in HT. injection HT as <-. cbn [In] in He. destruct He as [<-|[<-|[]]].
      + rewrite (HSown "magnitudemagvalue" "") by (cbn; tauto). rewrite (Sm2 "magnitudemagvalue"), (main_field "magnitudemagvalue" _ (or_intror (or_introl eq_refl))). symmetry. apply (HM "magnitudemagvalue"); cbn; tauto.
      + rewrite (HSown "magnitudemaguncertainty" "_uncertainty") by (cbn; tauto). rewrite (Sm2 "magnitudemaguncertainty"), (main_field "magnitudemaguncertainty" _ (or_intror (or_intror (or_introl eq_refl)))). symmetry. apply (HM "magnitudemaguncertainty"); cbn; tauto.
    - intros T e0 HT HtT He. assert (tT : t <> T) by (intros ->; contradiction). assert (Hk : exists k, In (k, e0) Props_QuakeML2.columns /\ In e0 endings /\ forall d, In (T, d) sec -> field (sec_fields (T, d)) k = shown (dget d ("magnitude" ++ e0))).
      { cbn [In] in He. destruct He as [<-|[<-|[]]]; [exists "magnitudemagvalue"|exists "magnitudemaguncertainty"]; (split; [cbn; tauto|]); (split; [cbn; tauto|]); intros d Hd; apply (sec_field (T, d)); try exact Hd; cbn; tauto. }
      destruct Hk as (k & Hk & Hend & Hfield). destruct (Hcell T e0 HT Hend) as [C1 C2]. destruct (HSsec T k e0 HT tT Hk) as [(d & Hd & ->)|[Hno ->]].
      + assert (El : lookup2 sec T ("magnitude" ++ e0) = dget d ("magnitude" ++ e0)) by (unfold lookup2; rewrite (dget_In sec T d sec_nodup Hd); reflexivity). rewrite (Hfield d Hd), <- El. split; intros H.
        * rewrite (proj1 (C1 H)). reflexivity.
        * rewrite (C2 H). reflexivity.
      + split; [|auto]. intros H. destruct (C1 H) as [_ Hin]. apply in_map_iff in Hin. destruct Hin as ([T' d] & E & Hd). cbn in E. subst T'. destruct (Hno d Hd).
    - intros T HT HtT id0. assert (tT : t <> T) by (intros ->; contradiction). unfold id0 in *. clear id0.
      assert (Hfield : forall d, In (T, d) sec -> field (sec_fields (T, d)) "magnitudepublicID" = Some (text_of (dget d "magnitude_magnitudeID"))) by (intros d Hd; apply (sec_field (T, d)); [exact Hd|left; reflexivity]).
      destruct (Hcell T "_magnitudeID" HT ltac:(cbn; tauto)) as [C1 C2]. destruct (HSsec T "magnitudepublicID" "_magnitudeID" HT tT ltac:(cbn; tauto)) as [(d & Hd & ->)|[Hno ->]].
      + assert (El : lookup2 sec T "magnitude_magnitudeID" = dget d "magnitude_magnitudeID") by (unfold lookup2; rewrite (dget_In sec T d sec_nodup Hd); reflexivity).
        change ("magnitude" ++ "_magnitudeID") with "magnitude_magnitudeID" in C1, C2. rewrite (Hfield d Hd), <- El. split; [|split]; intros H.
        * destruct H as (Hc & Hs & (v & Ev) & Ht). destruct C1 as [C1 _]; [split; [exact Hc|]; split; [exact Hs|]; split; [exists v; exact Ev|exact Ht]|]. rewrite C1, Ev. reflexivity.
        * intros _. rewrite (C2 H). reflexivity.
        * exfalso. assert (Hx := in_map fst _ _ Hd). apply sec_in in Hx. cbn [fst] in Hx. destruct Hx as (e0 & _ & He & Hk & Hkept). apply (H e0 He). destruct (Hcell T e0 HT He) as [_ K2].
          apply (proj1 (surv_iff _)). split; assumption.
      + assert (Nin : ~ In T (map fst sec)) by (intros Hin; apply in_map_iff in Hin; destruct Hin as ([T' d] & E & Hd); cbn in E; subst T'; exact (Hno d Hd)).
        split; [|split]; intros H.
        * destruct (Nin (proj2 (C1 H))).
        * intros (e0 & He & Hs). destruct (Nin (proj2 (proj1 (Hcell T e0 HT He) Hs))).
        * reflexivity.
    - intros v e0 Hv He. cbn [In] in Hv, He. destruct Hv as [<-|[<-|[<-|[<-|[<-|[]]]]]]; destruct He as [<-|[<-|[<-|[]]]]; try (eapply HOn; cbn; tauto); eapply HMn; cbn; tauto.
    - eapply HOn; cbn; tauto.
    - intros T e0 HT He. destruct (string_dec t T) as [<-|tT].
      + assert (Hk : exists k, In (k, e0) Props_QuakeML2.columns /\ In k ["magnitudemaglowerUncertainty"; "magnitudemagupperUncertainty"; "magnitudemagconfidenceLevel"]) by (cbn [In] in He; destruct He as [<-|[<-|[<-|[]]]]; eexists; cbn; intuition reflexivity).
        destruct Hk as (k & H1 & H2). rewrite (HSown k e0 H1), (Sm2 k), Et. rewrite mag_field_none; [reflexivity|apply get_fine|apply get_fine|exact Pt|apply id_fine|exact H2].
      + assert (Hk : exists k, In (k, e0) Props_QuakeML2.columns /\ In k ["magnitudemaglowerUncertainty"; "magnitudemagupperUncertainty"; "magnitudemagconfidenceLevel"]) by (cbn [In] in He; destruct He as [<-|[<-|[<-|[]]]]; eexists; cbn; intuition reflexivity).
        destruct Hk as (k & H1 & H2). destruct (HSsec T k e0 HT tT H1) as [(d & Hd & ->)|[_ H]]; [|exact H]. unfold sec_fields. rewrite mag_field_none; [reflexivity|apply sec_fine; exact Hd|apply sec_fine; exact Hd|apply (sec_type _ Hd)|apply id_fine|exact H2].
  Qed.
End Event.
