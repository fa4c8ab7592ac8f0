(** * The handler on trees *)
From Coq Require Import List Bool String Ascii Lia ZArith QArith.
From Verif Require Import Base Dict QuakeML_model Spec_QuakeML.
Import ListNotations.
Open Scope string_scope.

(** the callbacks of a document *)
Fixpoint ser_plain (p : plain) : list sax :=
  match p with
  | PText ps => map Chars ps
  | PElem t a ch => Start t a :: app (flat_map ser_plain ch) [End t]
  end.
Definition ser_child (c : child) : list sax :=
  match c with
  | Plain p => ser_plain p
  | Origin a ch => Start "origin" a :: app (flat_map ser_plain ch) [End "origin"]
  | Magnitude a ch => Start "magnitude" a :: app (flat_map ser_plain ch) [End "magnitude"]
  end.
Definition ser_event (e : event) : list sax := Start "event" (ev_attrs e) :: app (flat_map ser_child (ev_children e)) [End "event"].
Fixpoint ser_doc (d : doc) : list sax :=
  match d with
  | DText ps => map Chars ps
  | DElem t a ch => Start t a :: app (flat_map ser_doc ch) [End t]
  | DEvent e => ser_event e
  end.

Section PlainInd.
  Variable P : plain -> Prop.
  Hypothesis H1 : forall ps, P (PText ps).
  Hypothesis H2 : forall t a ch, Forall P ch -> P (PElem t a ch).
  Fixpoint plain_ind' (p : plain) : P p :=
    match p with
    | PText ps => H1 ps
    | PElem t a ch => H2 t a ch ((fix go l : Forall P l := match l with [] => Forall_nil _ | x :: l => Forall_cons _ (plain_ind' x) (go l) end) ch)
    end.
End PlainInd.
Section DocInd.
  Variable P : doc -> Prop.
  Hypothesis H1 : forall ps, P (DText ps).
  Hypothesis H2 : forall t a ch, Forall P ch -> P (DElem t a ch).
  Hypothesis H3 : forall e, P (DEvent e).
  Fixpoint doc_ind' (p : doc) : P p :=
    match p with
    | DText ps => H1 ps
    | DElem t a ch => H2 t a ch ((fix go l : Forall P l := match l with [] => Forall_nil _ | x :: l => Forall_cons _ (doc_ind' x) (go l) end) ch)
    | DEvent e => H3 e
    end.
End DocInd.

(** ** strings *)
Lemma app_assoc_s a b c : (a ++ b) ++ c = a ++ (b ++ c).
Proof. induction a; cbn; [reflexivity|]. rewrite IHa. reflexivity. Qed.
Lemma app_nil_s a : a ++ "" = a.
Proof. induction a; cbn; [reflexivity|]. rewrite IHa. reflexivity. Qed.
Lemma length_app_s a b : String.length (a ++ b) = (String.length a + String.length b)%nat.
Proof. induction a; cbn; [reflexivity|]. rewrite IHa. reflexivity. Qed.
Lemma sub_prefix a b : substring 0 (String.length a) (a ++ b) = a.
Proof. induction a; cbn; [destruct b; reflexivity|]. rewrite IHa. reflexivity. Qed.
Lemma trim_tag loc tag : substring 0 (String.length (loc ++ tag) - String.length tag) (loc ++ tag) = loc.
Proof. rewrite length_app_s. replace (String.length loc + String.length tag - String.length tag)%nat with (String.length loc) by lia. apply sub_prefix. Qed.

(** ** dictionaries of strings *)
Definition strs (d : pd) : Prop := forall k v, dget d k = Some v -> exists s, v = Some s.
Definition absorb1 (d : pd) (k v : string) : pd :=
  match dget d k with Some (Some old) => dset d k (Some (old ++ v)) | _ => dset d k (Some v) end.
Definition absorb (d : pd) (l : list (string * string)) : pd := fold_left (fun d kv => absorb1 d (fst kv) (snd kv)) l d.
Lemma absorb_app d l1 l2 : absorb d (app l1 l2) = absorb (absorb d l1) l2.
Proof. unfold absorb. apply fold_left_app. Qed.
Lemma strs_set d k s : strs d -> strs (dset d k (Some s)).
Proof. intros H k' v. rewrite dget_dset. destruct (k' =? k); [intros [= <-]; eauto|apply H]. Qed.
Lemma strs_absorb1 d k v : strs d -> strs (absorb1 d k v).
Proof. intros H. unfold absorb1. destruct (dget d k) as [[o|]|]; apply strs_set; exact H. Qed.
Lemma strs_absorb l : forall d, strs d -> strs (absorb d l).
Proof. induction l as [|[k v] l IH]; intros d H; [exact H|]. apply IH, strs_absorb1, H. Qed.
Lemma add_value_ok d k v : strs d -> add_value d k "" v = Ok (absorb1 d k v).
Proof.
  intros H. unfold add_value, absorb1, has. rewrite app_nil_s. destruct (dget d k) as [[o|]|] eqn:E; try reflexivity. destruct (H k None E). discriminate.
Qed.
(** what [absorb] stores *)
Lemma join_app a b : join (app a b) = join a ++ join b.
Proof. unfold join. induction a as [|x a IH]; cbn [app fold_right]; [reflexivity|]. rewrite IH, app_assoc_s. reflexivity. Qed.
Lemma values_app l1 l2 k : values (app l1 l2) k = app (values l1 k) (values l2 k).
Proof. unfold values. apply flat_map_app. Qed.
Lemma absorb_get l : forall d k, strs d -> dget (absorb d l) k =
  match dget d k with
  | Some (Some o) => Some (Some (o ++ join (values l k)))
  | _ => match values l k with [] => dget d k | vs => Some (Some (join vs)) end
  end.
Proof.
  induction l as [|[k' v] l IH]; intros d k Hd.
  - cbn. destruct (dget d k) as [[o|]|]; [rewrite app_nil_s; reflexivity|reflexivity|reflexivity].
  - cbn [absorb fold_left fst snd]. fold (absorb (absorb1 d k' v) l). rewrite IH by (apply strs_absorb1; exact Hd).
    cbn [values flat_map fst snd]. fold (values l k). unfold absorb1.
    destruct (k' =? k) eqn:E.
    + apply String.eqb_eq in E. subst k'. destruct (dget d k) as [[o|]|] eqn:G; rewrite dget_dset, String.eqb_refl; cbn [app join fold_right]; [rewrite app_assoc_s; reflexivity|reflexivity|reflexivity].
    + cbn [app]. assert (E' : (k =? k') = false) by (rewrite String.eqb_sym; exact E). destruct (dget d k') as [[o|]|]; rewrite dget_dset, E'; reflexivity.
Qed.
Lemma absorb_field l k : dget (absorb [] l) k = option_map Some (field l k).
Proof. rewrite absorb_get by (intros ? ? H; discriminate H). cbn [dget]. unfold field. destruct (values l k); reflexivity. Qed.
Lemma strs_nil : strs []. Proof. intros ? ? H. discriminate H. Qed.

Section Run.
  Context (tf : option string -> res Q) (tm : option string -> res Z) (so : list (option string) -> list (option string)) (ia iq : bool).
  Notation handle := (handle tf tm so ia iq).
  Notation run := (handle_all tf tm so ia iq).
  Notation parse := (parse_to_dict tf tm so ia iq).
  Lemma run_app a b : forall s, run s (app a b) = let? s' := run s a in run s' b.
  Proof. induction a as [|e a IH]; intros s; [reflexivity|]. cbn [app handle_all]. destruct (handle s e); cbn [rbind]; [apply IH|reflexivity]. Qed.
  Lemma put_put s k l l' : put_list (put_list s k l) k l' = put_list s k l'.
  Proof. unfold put_list. destruct (k =? "event"); [reflexivity|]. destruct (k =? "origin"); reflexivity. Qed.
  Lemma put_parent s k l : h_parent (put_list s k l) = h_parent s /\ h_loc (put_list s k l) = h_loc s.
  Proof. unfold put_list. destruct (k =? "event"); [split; reflexivity|]. destruct (k =? "origin"); split; reflexivity. Qed.
  Lemma get_put s k l : get_list (put_list s k l) k = l.
  Proof. unfold put_list, get_list. destruct (k =? "event") eqn:E; [cbn; reflexivity|]. destruct (k =? "origin") eqn:F; reflexivity. Qed.
  Lemma put_get s k : put_list s k (get_list s k) = s.
  Proof. unfold put_list, get_list. destruct s. destruct (k =? "event"); [reflexivity|]. destruct (k =? "origin"); reflexivity. Qed.
  Lemma put_set_pl s k l p q : put_list (set_pl s p q) k l = set_pl (put_list s k l) p q.
  Proof. unfold put_list, set_pl. destruct (k =? "event"); [reflexivity|]. destruct (k =? "origin"); reflexivity. Qed.
  Lemma get_set_pl s k p q : get_list (set_pl s p q) k = get_list s k.
  Proof. reflexivity. Qed.
  Lemma set_pl_same s : set_pl s (h_parent s) (h_loc s) = s.
  Proof. destruct s. reflexivity. Qed.
  Lemma set_set s a b c d : set_pl (set_pl s a b) c d = set_pl s c d.
  Proof. reflexivity. Qed.

  (** inside an element of parent [key] whose current dictionary is [d] *)
  Lemma run_chars ps : forall s before d, h_parent s <> "" -> get_list s (h_parent s) = app before [d] -> strs d ->
    run s (map Chars ps) = Ok (put_list s (h_parent s) (app before [absorb d (visible strip (h_loc s) ps)])).
  Proof.
    induction ps as [|c ps IH]; intros s before d Hp Hl Hd.
    - cbn [map handle_all visible flat_map absorb fold_left]. rewrite <- Hl, put_get. reflexivity.
    - cbn [map handle_all QuakeML_model.handle]. rewrite (proj2 (String.eqb_neq (h_parent s) "")) by exact Hp. cbn [negb]. rewrite andb_true_r.
      cbn [visible flat_map]. fold (visible strip (h_loc s) ps). destruct (strip c =? "") eqn:E; cbn [negb rbind app].
      + apply IH; assumption.
      + unfold setter. rewrite Hl, rev_app_distr. cbn [rev app]. rewrite add_value_ok by exact Hd. cbn [rbind]. rewrite rev_involutive.
        set (s' := put_list s (h_parent s) (app before [absorb1 d (h_loc s) (strip c)])).
        destruct (put_parent s (h_parent s) (app before [absorb1 d (h_loc s) (strip c)])) as [P1 P2]. fold s' in P1, P2.
        rewrite (IH s' before (absorb1 d (h_loc s) (strip c))).
        * rewrite P1, P2. unfold s'. rewrite put_put. reflexivity.
        * rewrite P1. exact Hp.
        * rewrite P1. unfold s'. apply get_put.
        * apply strs_absorb1. exact Hd.
  Qed.
  Lemma handle_start_plain s t a : reserved t = false -> h_parent s <> "" -> handle s (Start t a) = Ok (set_pl s (h_parent s) (h_loc s ++ t)).
  Proof. intros Ht Hp. cbn [QuakeML_model.handle]. unfold special. unfold reserved in Ht. rewrite Ht. rewrite (proj2 (String.eqb_neq (h_parent s) "")) by exact Hp. reflexivity. Qed.
  Lemma reserved_false t : reserved t = false -> (t =? "event") = false /\ (t =? "origin") = false /\ (t =? "magnitude") = false.
  Proof. unfold reserved. rewrite !orb_false_iff. tauto. Qed.
  Lemma handle_end_plain s t loc : reserved t = false -> h_parent s <> "" -> h_loc s = loc ++ t -> handle s (End t) = Ok (set_pl s (h_parent s) loc).
  Proof.
    intros Ht Hp Hl. cbn [QuakeML_model.handle]. destruct (reserved_false t Ht) as (-> & -> & ->). cbn [orb]. rewrite (proj2 (String.eqb_neq (h_parent s) "")) by exact Hp. cbn [negb]. rewrite Hl, trim_tag. reflexivity.
  Qed.
  Lemma run_plain p : forall s before d, plain_ok p -> h_parent s <> "" -> get_list s (h_parent s) = app before [d] -> strs d ->
    run s (ser_plain p) = Ok (put_list s (h_parent s) (app before [absorb d (texts strip (h_loc s) p)])).
  Proof.
    induction p as [ps|t a ch IH] using plain_ind'; intros s before d Hok Hp Hl Hd.
    - apply run_chars; assumption.
    - cbn [plain_ok] in Hok. destruct Hok as [Ht Hch]. cbn [ser_plain handle_all]. rewrite handle_start_plain by assumption. cbn [rbind].
      set (s1 := set_pl s (h_parent s) (h_loc s ++ t)). rewrite run_app.
      assert (K : forall l s before d, Forall (fun p => forall s before d, plain_ok p -> h_parent s <> "" -> get_list s (h_parent s) = app before [d] -> strs d ->
            run s (ser_plain p) = Ok (put_list s (h_parent s) (app before [absorb d (texts strip (h_loc s) p)]))) l ->
          fold_right (fun c r => plain_ok c /\ r) True l -> h_parent s <> "" -> get_list s (h_parent s) = app before [d] -> strs d ->
          run s (flat_map ser_plain l) = Ok (put_list s (h_parent s) (app before [absorb d (flat_map (texts strip (h_loc s)) l)]))).
      { clear. induction l as [|p l IHl]; intros s before d HF Hok Hp Hl Hd.
        - cbn. rewrite <- Hl, put_get. reflexivity.
        - inversion_clear HF as [|? ? F1 F2]. cbn [fold_right] in Hok. destruct Hok as [O1 O2]. cbn [flat_map]. rewrite run_app, (F1 s before d) by assumption. cbn [rbind].
          set (s' := put_list s (h_parent s) (app before [absorb d (texts strip (h_loc s) p)])).
          destruct (put_parent s (h_parent s) (app before [absorb d (texts strip (h_loc s) p)])) as [P1 P2]. fold s' in P1, P2.
          rewrite (IHl s' before (absorb d (texts strip (h_loc s) p))).
          + rewrite P1, P2. unfold s'. rewrite put_put, absorb_app. reflexivity.
          + exact F2.
          + exact O2.
          + rewrite P1; exact Hp.
          + rewrite P1. unfold s'. apply get_put.
          + apply strs_absorb. exact Hd. }
      rewrite (K ch s1 before d IH Hch Hp Hl Hd). cbn [rbind]. change (h_parent s1) with (h_parent s). change (h_loc s1) with (h_loc s ++ t).
      set (v := app before [absorb d (flat_map (texts strip (h_loc s ++ t)) ch)]).
      destruct (put_parent s1 (h_parent s) v) as [P1 P2]. cbn [handle_all]. rewrite (handle_end_plain _ t (h_loc s)).
      + cbn [rbind]. rewrite P1. change (h_parent s1) with (h_parent s). unfold s1. rewrite put_set_pl, set_set. destruct (put_parent s (h_parent s) v) as [Q1 Q2].
        transitivity (Ok (put_list s (h_parent s) v)); [|reflexivity]. apply f_equal. transitivity (set_pl (put_list s (h_parent s) v) (h_parent (put_list s (h_parent s) v)) (h_loc (put_list s (h_parent s) v))); [rewrite Q1, Q2; reflexivity|apply set_pl_same].
      + exact Ht.
      + rewrite P1. exact Hp.
      + rewrite P2. reflexivity.
  Qed.
  Lemma run_plains l : forall s before d, Forall plain_ok l -> h_parent s <> "" -> get_list s (h_parent s) = app before [d] -> strs d ->
    run s (flat_map ser_plain l) = Ok (put_list s (h_parent s) (app before [absorb d (flat_map (texts strip (h_loc s)) l)])).
  Proof.
    induction l as [|p l IHl]; intros s before d HF Hp Hl Hd.
    - cbn. rewrite <- Hl, put_get. reflexivity.
    - inversion_clear HF as [|? ? O1 O2]. cbn [flat_map]. rewrite run_app, (run_plain p s before d) by assumption. cbn [rbind].
      set (s' := put_list s (h_parent s) (app before [absorb d (texts strip (h_loc s) p)])).
      destruct (put_parent s (h_parent s) (app before [absorb d (texts strip (h_loc s) p)])) as [P1 P2]. fold s' in P1, P2.
      rewrite (IHl s' before (absorb d (texts strip (h_loc s) p))).
      + rewrite P1, P2. unfold s'. rewrite put_put, absorb_app. reflexivity.
      + exact O2.
      + rewrite P1; exact Hp.
      + rewrite P1. unfold s'. apply get_put.
      + apply strs_absorb. exact Hd.
  Qed.

  (** the state inside an event: dictionaries of the event, its origins and magnitudes so far *)
  Definition inside cat (ev : pd) (os ms : list pd) : hst := mkh cat [ev] os ms "event" "".
  Lemma run_special tag a ch cat ev os ms : tag = "origin" \/ tag = "magnitude" -> Forall plain_ok ch ->
    run (inside cat ev os ms) (Start tag a :: app (flat_map ser_plain ch) [End tag]) =
    Ok (let d := absorb [] (node_fields strip tag a ch) in if tag =? "origin" then inside cat ev (app os [d]) ms else inside cat ev os (app ms [d])).
  Proof.
    intros Ht Hch.
    assert (Hstart : handle (inside cat ev os ms) (Start tag a) = Ok (let d := absorb [] (public tag a) in
        set_pl (if tag =? "origin" then inside cat ev (app os [d]) ms else inside cat ev os (app ms [d])) tag tag)).
    { assert (Ea : dget a "publicID" = attr a "publicID") by (induction a as [|[x y] a IHa]; [reflexivity|cbn [dget attr]; rewrite IHa; reflexivity]).
      cbn [QuakeML_model.handle]. rewrite Ea. unfold public. destruct Ht as [-> | ->]; destruct (attr a "publicID") as [v|]; try reflexivity.
      - unfold setter. cbn [set_pl inside put_list get_list h_origin h_event h_mag h_cat h_parent h_loc String.eqb Ascii.eqb Bool.eqb orb negb]. cbn. rewrite rev_app_distr. cbn. rewrite rev_involutive. reflexivity.
      - unfold setter. cbn. rewrite rev_app_distr. cbn. rewrite rev_involutive. reflexivity. }
    cbn [handle_all]. rewrite Hstart. cbn [rbind]. clear Hstart. set (d0 := absorb [] (public tag a)). cbv zeta. rewrite run_app.
    assert (Hs0 : strs d0) by (apply strs_absorb, strs_nil).
    assert (Habs : absorb [] (node_fields strip tag a ch) = absorb d0 (flat_map (texts strip tag) ch)) by (unfold node_fields; apply absorb_app).
    rewrite Habs. destruct Ht as [-> | ->]; cbn [String.eqb Ascii.eqb Bool.eqb].
    - rewrite (run_plains ch _ os d0); [|exact Hch|discriminate|reflexivity|exact Hs0]. reflexivity.
    - rewrite (run_plains ch _ ms d0); [|exact Hch|discriminate|reflexivity|exact Hs0]. reflexivity.
  Qed.
  Lemma run_children l : forall cat ev os ms, Forall child_ok l -> strs ev ->
    run (inside cat ev os ms) (flat_map ser_child l) =
    Ok (inside cat (absorb ev (flat_map (fun c => match c with Plain p => texts strip "" p | _ => [] end) l))
               (app os (map (fun f => absorb [] f) (flat_map (fun c => match c with Origin a ch => [node_fields strip "origin" a ch] | _ => [] end) l)))
               (app ms (map (fun f => absorb [] f) (flat_map (fun c => match c with Magnitude a ch => [node_fields strip "magnitude" a ch] | _ => [] end) l)))).
  Proof.
    induction l as [|c l IH]; intros cat ev os ms Hok Hev.
    - cbn. rewrite !app_nil_r. reflexivity.
    - inversion_clear Hok as [|? ? O1 O2]. cbn [flat_map]. rewrite run_app. destruct c as [p|a ch|a ch]; cbn [ser_child].
      + rewrite (run_plain p (inside cat ev os ms) [] ev); [|exact O1|discriminate|reflexivity|exact Hev]. cbn [rbind].
        change (put_list (inside cat ev os ms) (h_parent (inside cat ev os ms)) (app [] [absorb ev (texts strip (h_loc (inside cat ev os ms)) p)])) with (inside cat (absorb ev (texts strip "" p)) os ms).
        rewrite IH by (try assumption; apply strs_absorb; exact Hev). rewrite absorb_app. reflexivity.
      + rewrite (run_special "origin" a ch) by (auto; exact O1). cbn [rbind String.eqb Ascii.eqb Bool.eqb]. rewrite IH by assumption. cbn [flat_map app map]. rewrite <- app_assoc. reflexivity.
      + rewrite (run_special "magnitude" a ch) by (auto; exact O1). cbn [rbind String.eqb Ascii.eqb Bool.eqb]. rewrite IH by assumption. cbn [flat_map app map]. rewrite <- app_assoc. reflexivity.
  Qed.
  (** one event gives one record *)
  Definition record (e : event) : res pd :=
    parse (absorb [] (event_fields strip e)) (map (absorb []) (origin_fields strip e)) (map (absorb []) (magnitude_fields strip e)).
  Lemma run_event e cat : Forall child_ok (ev_children e) -> run (h_init cat) (ser_event e) = let? d := record e in Ok (h_init (app cat [d])).
  Proof.
    intros Hok. unfold ser_event. cbn [handle_all].
    assert (Hstart : handle (h_init cat) (Start "event" (ev_attrs e)) = Ok (inside cat (absorb [] (public "" (ev_attrs e))) [] [])).
    { assert (Ea : dget (ev_attrs e) "publicID" = attr (ev_attrs e) "publicID") by (induction (ev_attrs e) as [|[x y] a IHa]; [reflexivity|cbn [dget attr]; rewrite IHa; reflexivity]).
      cbn [QuakeML_model.handle]. rewrite Ea. unfold public. destruct (attr (ev_attrs e) "publicID") as [v|]; reflexivity. }
    rewrite Hstart. cbn [rbind]. rewrite run_app, run_children; [|exact Hok|apply strs_absorb, strs_nil]. cbn [rbind app handle_all].
    cbn [QuakeML_model.handle inside h_event h_origin h_mag h_cat rev app String.eqb Ascii.eqb Bool.eqb]. rewrite <- absorb_app.
    unfold record, event_fields, origin_fields, magnitude_fields. destruct (parse _ _ _); reflexivity.
  Qed.
  Lemma run_outer_chars ps cat : run (h_init cat) (map Chars ps) = Ok (h_init cat).
  Proof. induction ps as [|c ps IH]; [reflexivity|]. cbn [map handle_all QuakeML_model.handle h_init h_parent]. rewrite andb_false_r. cbn [rbind]. exact IH. Qed.
  Lemma map_res_app {A B} (f : A -> res B) l1 l2 : map_res f (app l1 l2) = let? a := map_res f l1 in let? b := map_res f l2 in Ok (app a b).
  Proof. induction l1 as [|x l1 IH]; cbn; [destruct (map_res f l2); reflexivity|]. destruct (f x); cbn; [|reflexivity]. rewrite IH. destruct (map_res f l1); cbn; [|reflexivity]. destruct (map_res f l2); reflexivity. Qed.
  Lemma run_doc d : forall cat, doc_ok d -> run (h_init cat) (ser_doc d) = let? ds := map_res record (events_of d) in Ok (h_init (app cat ds)).
  Proof.
    induction d as [ps|t a ch IH|e] using doc_ind'; intros cat Hok.
    - cbn [ser_doc events_of map_res]. rewrite run_outer_chars. cbn. rewrite app_nil_r. reflexivity.
    - cbn [doc_ok] in Hok. destruct Hok as [Ht Hch]. cbn [ser_doc handle_all events_of].
      assert (H1 : handle (h_init cat) (Start t a) = Ok (h_init cat)) by (cbn [QuakeML_model.handle]; unfold special; unfold reserved in Ht; rewrite Ht; reflexivity).
      rewrite H1. cbn [rbind]. rewrite run_app.
      assert (K : forall cat, run (h_init cat) (flat_map ser_doc ch) = let? ds := map_res record (flat_map events_of ch) in Ok (h_init (app cat ds))).
      { clear H1. induction ch as [|c ch IHc]; intros cat'; [cbn; rewrite app_nil_r; reflexivity|]. inversion_clear IH as [|? ? F1 F2]. cbn [fold_right] in Hch. destruct Hch as [O1 O2].
        cbn [flat_map]. rewrite run_app, F1 by exact O1. rewrite map_res_app. destruct (map_res record (events_of c)) as [ds|]; cbn [rbind]; [|reflexivity].
        rewrite (IHc F2 O2). destruct (map_res record (flat_map events_of ch)); cbn [rbind]; [rewrite app_assoc; reflexivity|reflexivity]. }
      rewrite K. destruct (map_res record (flat_map events_of ch)) as [ds|]; cbn [rbind]; [|reflexivity]. cbn [handle_all].
      assert (H2 : handle (h_init (app cat ds)) (End t) = Ok (h_init (app cat ds))).
      { cbn [QuakeML_model.handle]. destruct (reserved_false t Ht) as (-> & -> & ->). reflexivity. }
      rewrite H2. reflexivity.
    - cbn [ser_doc events_of map_res]. rewrite run_event by exact Hok. destruct (record e); reflexivity.
  Qed.
End Run.
