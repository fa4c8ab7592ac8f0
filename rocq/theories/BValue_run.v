(** * What one call of calculate does, as a pure function of its arguments
    (proof device: [calculate_run] relates it to the stateful model) *)
From Coq Require Import ZArith List Bool String Lia.
From Verif Require Import Base Num SortLib RList Binning_model BValue_model.
Import ListNotations.

Section Run.
  Context {T : Type} {N : Num T}.
  Local Open Scope num_scope.
  Variable srt : list T -> list nat.

  Definition thr (a : @args T) : T := a_mc a - dec_val (a_delta a) / two.
  Definition keep (a : @args T) : list bool := map (fun m => m >=? thr a) (a_mags a).

  Definition check (a : @args T) : res unit :=
    let? _ := match a_mags a with
              | [] => Ok tt
              | x :: t => let? b := binning_test (x :: t) (a_delta a) (lit 1 15) false in
                          if b then Ok tt else Err ValueError
              end in
    match a_weights a with
    | None => Ok tt
    | Some ws => if negb (List.length (a_mags a) =? List.length ws)%nat then Err IndexError
                 else if existsb (fun v => v <? zero) ws then Err ValueError else Ok tt
    end.

  Record out := mkout { u_mags : list T; u_weights : option (list T); u_idx : list nat;
                        u_times : option (list T); u_omags : list T; u_oweights : option (list T) ;
                        u_b : T }.

  Definition is_pos (k : kind) : bool := match k with Classic | Utsu => false | _ => true end.

  Definition ogather (x : option (list T)) (i : list nat) : res (option (list T)) :=
    match x with None => Ok None | Some l => rmap Some (gather l i) end.

  (* filtered data *)
  Definition f_mags a := compress (keep a) (a_mags a).
  Definition f_weights a := option_map (compress (keep a)) (a_weights a).
  Definition f_idx a := where_idx (keep a).
  Definition f_times (k : kind) a : res (option (list T)) :=
    if is_pos k then ogather (a_times a) (f_idx a) else Ok None.

  Definition the_dmc (a : @args T) : T := match a_dmc a with Some d => d | None => dec_val (a_delta a) end.

  Definition ordered (ms : list T) ws ix ts : res (list T * option (list T) * list nat * option (list T)) :=
    match ts with
    | None => Ok (ms, ws, ix, None)
    | Some t => let s := srt t in
                let? ms' := gather ms s in
                let? ws' := ogather ws s in
                let? ts' := gather t s in
                let? ix' := gather ix s in
                Ok (ms', ws', ix', Some ts')
    end.

  Definition run_pos (a : @args T) (ms : list T) ws ix ts : res out :=
    let? q := ordered ms ws ix ts in
    let '(ms1, ws1, ix1, ts1) := q in
    let d := dec_val (a_delta a) in
    let diffs := np_diff ms1 in
    let lg := map (fun x => x >=? (the_dmc a - d / two)) diffs in
    let? diffs' := (if d >? zero then bin_to_precision (Some diffs) (a_delta a) else Ok diffs) in
    let ms2 := compress lg diffs' in
    let ws2 := option_map (fun w => compress lg (tl w)) ws1 in
    let? b := mle_estimator ms2 (the_dmc a) (a_delta a) ws2 in
    Ok (mkout ms2 ws2 (compress lg (tl ix1)) (option_map (fun t => compress lg (tl t)) ts1) ms ws b).

  Definition run_more (a : @args T) (ms : list T) ws ix ts : res out :=
    let? q := ordered ms ws ix ts in
    let '(ms1, ws1, ix1, ts1) := q in
    let d := dec_val (a_delta a) in
    let nxt := find_next_larger ms1 d (Some (the_dmc a)) in
    let? larger := gather ms1 nxt in
    let? diffs := bin_to_precision (Some (map2 nsub larger ms1)) (a_delta a) in
    let hn := map (fun j => negb (j =? 0)%nat) nxt in
    let nx := compress hn nxt in
    let ms2 := compress hn diffs in
    let? ix2 := gather ix1 nx in
    let? ws2 := ogather ws1 nx in
    let? ts2 := ogather ts1 nx in
    let? b := mle_estimator ms2 (the_dmc a) (a_delta a) ws2 in
    Ok (mkout ms2 ws2 ix2 ts2 ms1 ws1 b).

  Definition run_est (k : kind) (a : @args T) ms ws ix ts : res out :=
    match k with
    | Classic => let? b := mle_estimator ms (a_mc a) (a_delta a) ws in Ok (mkout ms ws ix ts ms ws b)
    | Utsu => let? b := utsu_estimator ms (a_mc a) (a_delta a) ws in Ok (mkout ms ws ix ts ms ws b)
    | BPositive => run_pos a ms ws ix ts
    | BMorePositive => run_more a ms ws ix ts
    end.

  Definition run (k : kind) (a : @args T) : res out :=
    let? _ := if is_pos k && (the_dmc a <? zero) then Err ValueError else Ok tt in
    let? _ := check a in
    let? ts := f_times k a in
    let ms := f_mags a in let ws := f_weights a in let ix := f_idx a in
    match ms with
    | [] => Ok (mkout ms ws ix ts ms ws nnan)
    | _ => run_est k a ms ws ix ts
    end.

  (** the object after a successful call: everything but the never-reset hidden copies *)
  Definition final (k : kind) (a : @args T) (u : out) (o o' : @obj T) : Prop :=
    o_mags o' = Some (u_mags u) /\ o_mc o' = Some (a_mc a) /\ o_delta o' = Some (a_delta a) /\
    o_weights o' = u_weights u /\ o_idx o' = Some (u_idx u) /\ o_b o' = Some (u_b u) /\
    o_orig_mags o' = Some (u_omags u) /\
    o_orig_weights o' = match u_oweights u with Some w => Some w | None => o_orig_weights o end /\
    o_times o' = (if is_pos k then u_times u else o_times o) /\
    o_dmc o' = (if is_pos k then Some (the_dmc a) else o_dmc o).

  (* o1 and o2 agree except for the warnings *)
  Definition eqw (o1 o2 : @obj T) : Prop :=
    o_mags o1 = o_mags o2 /\ o_mc o1 = o_mc o2 /\ o_delta o1 = o_delta o2 /\ o_weights o1 = o_weights o2 /\
    o_idx o1 = o_idx o2 /\ o_b o1 = o_b o2 /\ o_orig_mags o1 = o_orig_mags o2 /\
    o_orig_weights o1 = o_orig_weights o2 /\ o_times o1 = o_times o2 /\ o_dmc o1 = o_dmc o2.

  Lemma warn_run w s (o : @obj T) : exists o', warn w s o = (o', Ok tt) /\ eqw o' o.
  Proof.
    unfold warn. destruct w; eexists; (split; [reflexivity|]); repeat split; reflexivity.
  Qed.

  Lemma sanity_run w a o : o_mags o = Some (a_mags a) -> o_weights o = a_weights a ->
    exists o', sanity_checks w a o = (o', check a) /\ eqw o' o.
  Proof.
    intros Hm Hw. unfold sanity_checks, check, bind, get, mags_of. rewrite Hm, Hw.
    assert (E : forall o1, eqw o1 o -> exists o',
      (match a_weights a with
       | None => ret tt
       | Some ws => if negb (List.length (a_mags a) =? List.length ws)%nat then raise IndexError
                    else if existsb (fun v => v <? zero) ws then raise ValueError else ret tt
       end) o1 = (o', match a_weights a with
       | None => Ok tt
       | Some ws => if negb (List.length (a_mags a) =? List.length ws)%nat then Err IndexError
                    else if existsb (fun v => v <? zero) ws then Err ValueError else Ok tt
       end) /\ eqw o' o).
    { intros o1 H1. exists o1. split; [|exact H1]. destruct (a_weights a) as [ws|]; [|reflexivity].
      destruct (negb _); [reflexivity|]. destruct (existsb _ ws); reflexivity. }
    destruct (a_mags a) as [|x t] eqn:Ea.
    - cbn [rbind ret]. apply E. repeat split; reflexivity.
    - cbv beta iota. unfold lift. destruct (binning_test (x :: t) (a_delta a) (lit 1 15) false) as [b|e].
      2:{ exists o. split; [reflexivity|repeat split; reflexivity]. }
      cbn [rbind]. destruct b.
      + cbn [rbind]. destruct (nltb _ _).
        * destruct (warn_run w "lowest bin" o) as (o1 & -> & H1). apply E. exact H1.
        * apply E. repeat split; reflexivity.
      + exists o. split; [reflexivity|repeat split; reflexivity].
  Qed.

  Lemma check_len a : check a = Ok tt -> match a_weights a with None => True | Some ws => List.length ws = List.length (a_mags a) end.
  Proof.
    unfold check. destruct (match a_mags a with [] => Ok tt | _ => _ end); [|discriminate]. cbn [rbind].
    destruct (a_weights a) as [ws|]; [|trivial].
    destruct (Nat.eqb_spec (List.length (a_mags a)) (List.length ws)); cbn; [congruence|discriminate].
  Qed.

  Lemma keep_length a : List.length (keep a) = List.length (a_mags a).
  Proof. apply map_length. Qed.

  Lemma bind_ok {A B} (m : @M T A) (f : A -> @M T B) o o' x : m o = (o', Ok x) -> bind m f o = f x o'.
  Proof. intros H. unfold bind. rewrite H. reflexivity. Qed.
  Lemma bind_err {A B} (m : @M T A) (f : A -> @M T B) o o' e : m o = (o', Err e) -> bind m f o = (o', Err e).
  Proof. intros H. unfold bind. rewrite H. reflexivity. Qed.
  Lemma eqw_refl o : eqw o o. Proof. repeat split; reflexivity. Qed.

  Lemma filter_run k w a o : o_mags o = Some (a_mags a) -> o_weights o = a_weights a -> check a = Ok tt ->
    (is_pos k = true -> o_times o = a_times a) ->
    match f_times k a with
    | Ok ts => exists o', filter_magnitudes k w a o = (o', Ok tt) /\
        o_mags o' = Some (f_mags a) /\ o_mc o' = o_mc o /\ o_delta o' = o_delta o /\ o_weights o' = f_weights a /\
        o_idx o' = Some (f_idx a) /\ o_b o' = o_b o /\ o_orig_mags o' = o_orig_mags o /\
        o_orig_weights o' = o_orig_weights o /\ o_times o' = (if is_pos k then ts else o_times o) /\ o_dmc o' = o_dmc o
    | Err e => exists o', filter_magnitudes k w a o = (o', Err e) /\ o_b o' = o_b o
    end.
  Proof.
    intros Hm Hw Hc Ht. pose proof (check_len a Hc) as Hl.
    assert (Em : mags_of o = a_mags a) by (unfold mags_of; rewrite Hm; reflexivity).
    unfold filter_magnitudes.
    rewrite (bind_ok _ _ o o o eq_refl). rewrite Em. fold (thr a). fold (keep a). change (where_idx (keep a)) with (f_idx a).
    rewrite (bind_ok _ _ o (set_idx (f_idx a) o) tt eq_refl).
    erewrite bind_ok by (unfold lift, f_idx; rewrite gather_where by apply keep_length; reflexivity).
    fold (f_mags a).
    rewrite (bind_ok _ _ _ (set_mags (f_mags a) (set_idx (f_idx a) o)) tt eq_refl).
    set (o1 := set_mags (f_mags a) (set_idx (f_idx a) o)).
    erewrite (bind_ok _ _ o1 (set_weights (f_weights a) o1) tt).
    2:{ rewrite Hw. unfold f_weights. destruct (a_weights a) as [ws|] eqn:Ew.
        - erewrite bind_ok by (unfold lift, f_idx; rewrite gather_where by (rewrite keep_length; congruence); reflexivity).
          reflexivity.
        - unfold ret, o1, set_weights, set_mags, set_idx; cbn. rewrite Hw, ?Ew. reflexivity. }
    set (o2 := set_weights (f_weights a) o1).
    assert (S2 : exists o3, (match f_mags a with [] => warn w "no magnitudes" | _ => ret tt end) o2 = (o3, Ok tt) /\ eqw o3 o2).
    { destruct (f_mags a); [apply warn_run|exists o2; split; [reflexivity|apply eqw_refl]]. }
    destruct S2 as (o3 & E3 & D3). rewrite (bind_ok _ _ _ _ _ E3).
    destruct D3 as (A1 & A2 & A3 & A4 & A5 & A6 & A7 & A8 & A9 & A10). unfold o2, o1 in A1, A2, A3, A4, A5, A6, A7, A8, A9, A10.
    cbn in A1, A2, A3, A4, A5, A6, A7, A8, A9, A10.
    unfold f_times. destruct (is_pos k) eqn:Ek.
    - specialize (Ht eq_refl). unfold ogather in *. rewrite <- Ht.
      destruct (o_times o) as [ts|] eqn:Eo; cbn [rmap].
      + destruct (gather ts (f_idx a)) as [ts'|e] eqn:Eg; cbn [rmap].
        * eexists. split.
          { destruct k; try discriminate; (erewrite bind_ok by (reflexivity)); reflexivity. }
          cbn. rewrite A1, A2, A3, A4, A5, A6, A7, A8, A10. repeat split; reflexivity.
        * eexists. split.
          { destruct k; try discriminate; (erewrite bind_err by (reflexivity)); reflexivity. }
          exact A6.
      + exists o3. split.
        { destruct k; try discriminate; reflexivity. }
        rewrite A1, A2, A3, A4, A5, A6, A7, A8, A9, A10. repeat split; reflexivity.
    - exists o3. split.
      { destruct k; try discriminate; reflexivity. }
      rewrite A1, A2, A3, A4, A5, A6, A7, A8, A9, A10. repeat split; reflexivity.
  Qed.

  (** ** the estimation step *)
  Lemma gather_err' {A} (xs : list A) i e : gather xs i = Err e -> Err e = Err (A:=A) IndexError.
  Proof. intros H. apply gather_err in H. congruence. Qed.

  Definition fld (o : @obj T) ms ws ix ts om ow b mc d dm :=
    o_mags o = Some ms /\ o_weights o = ws /\ o_idx o = Some ix /\ o_times o = ts /\ o_orig_mags o = Some om /\
    o_orig_weights o = ow /\ o_b o = b /\ o_mc o = mc /\ o_delta o = d /\ o_dmc o = dm.

  Lemma order_run (orig : bool) o ms ws ix ts ow b mc d dm :
    fld o ms ws ix ts ms (match ws with Some w => Some w | None => ow end) b mc d dm ->
    match ordered ms ws ix ts with
    | Ok (ms1, ws1, ix1, ts1) => exists o', order_by_time srt orig o = (o', Ok tt) /\
        fld o' ms1 ws1 ix1 ts1 (if orig then ms1 else ms)
          (match (if orig then ws1 else ws) with Some w => Some w | None => ow end) b mc d dm
    | Err e => exists o', order_by_time srt orig o = (o', Err e) /\ o_b o' = b
    end.
  Proof.
    intros (F1 & F2 & F3 & F4 & F5 & F6 & F7 & F8 & F9 & F10).
    unfold order_by_time. rewrite (bind_ok _ _ o o o eq_refl). rewrite F4.
    unfold ordered. destruct ts as [t|].
    2:{ exists o. split; [reflexivity|]. repeat split; auto; destruct orig; auto. }
    set (s := srt t). unfold mags_of. rewrite F1.
    destruct (gather ms s) as [ms'|e] eqn:G1; cbn [rbind].
    2:{ apply gather_err in G1 as ->. eexists. split; [apply bind_err; reflexivity|exact F7]. }
    rewrite (bind_ok _ _ o o ms' eq_refl).
    rewrite (bind_ok _ _ o (set_mags ms' o) tt eq_refl).
    set (o2 := if orig then set_orig_mags ms' (set_mags ms' o) else set_mags ms' o).
    rewrite (bind_ok _ _ _ o2 tt).
    2:{ unfold o2. destruct orig; [|reflexivity]. rewrite F5.
        erewrite bind_ok by (unfold lift; rewrite G1; reflexivity). reflexivity. }
    assert (B2 : o_b o2 = b) by (unfold o2; destruct orig; exact F7).
    destruct (gather t s) as [t'|e] eqn:G2.
    2:{ apply gather_err in G2 as ->.
        assert (R : (let? ws' := ogather ws s in let? ts' := Err IndexError in let? ix' := gather ix s in
                     Ok (ms', ws', ix', Some ts')) = Err (A := list T * option (list T) * list nat * option (list T)) IndexError).
        { unfold ogather. destruct ws as [w|]; [|reflexivity].
          destruct (gather w s) eqn:Gw; [reflexivity|]. apply gather_err in Gw as ->. reflexivity. }
        rewrite R. eexists. split; [apply bind_err; reflexivity|exact B2]. }
    rewrite (bind_ok _ _ o2 o2 t' eq_refl).
    rewrite (bind_ok _ _ _ (set_times (Some t') o2) tt eq_refl).
    unfold idx_of. rewrite F2, F3.
    destruct ws as [w|]; cbn [ogather].
    - destruct (gather w s) as [w'|e] eqn:G3; cbn [rmap rbind].
      2:{ apply gather_err in G3 as ->. eexists. split; [apply bind_err; apply bind_err; reflexivity|exact B2]. }
      set (o4 := if orig then set_orig_weights w' (set_weights (Some w') (set_times (Some t') o2))
                 else set_weights (Some w') (set_times (Some t') o2)).
      rewrite (bind_ok _ _ _ o4 tt).
      2:{ rewrite (bind_ok _ _ _ (set_times (Some t') o2) w' eq_refl).
          rewrite (bind_ok _ _ _ (set_weights (Some w') (set_times (Some t') o2)) tt eq_refl).
          unfold o4. destruct orig; [|reflexivity]. rewrite F6.
          erewrite bind_ok by (unfold lift; rewrite G3; reflexivity). reflexivity. }
      assert (B4 : o_b o4 = b) by (unfold o4, o2; destruct orig; exact F7).
      destruct (gather ix s) as [ix'|e] eqn:G4; cbn [rbind].
      2:{ eexists. split; [apply bind_err; reflexivity|exact B4]. }
      eexists. split; [rewrite (bind_ok _ _ o4 o4 ix' eq_refl); reflexivity|].
      unfold o4, o2; destruct orig; repeat split; cbn; auto.
    - cbn [rbind]. rewrite (bind_ok _ _ _ (set_times (Some t') o2) tt eq_refl).
      destruct (gather ix s) as [ix'|e] eqn:G4; cbn [rbind].
      2:{ eexists. split; [apply bind_err; reflexivity|exact B2]. }
      eexists. split; [rewrite (bind_ok _ _ _ (set_times (Some t') o2) ix' eq_refl); reflexivity|].
      unfold o2; destruct orig; repeat split; cbn; auto.
  Qed.

  Lemma est_run k a o ms ws ix ts ow b0 mc d dm : dm = (if is_pos k then Some (the_dmc a) else dm) ->
    fld o ms ws ix ts ms (match ws with Some w => Some w | None => ow end) b0 mc d dm ->
    match run_est k a ms ws ix ts with
    | Ok u => exists o', estimate srt k a o = (o', Ok (u_b u)) /\
        fld o' (u_mags u) (u_weights u) (u_idx u) (u_times u) (u_omags u)
          (match u_oweights u with Some w => Some w | None => ow end) b0 mc d dm
    | Err e => exists o', estimate srt k a o = (o', Err e) /\ o_b o' = b0
    end.
  Proof.
    intros Hdm F. pose proof F as (F1 & F2 & F3 & F4 & F5 & F6 & F7 & F8 & F9 & F10).
    destruct k; cbn [run_est estimate].
    - rewrite (bind_ok _ _ o o o eq_refl). unfold mags_of. rewrite F1, F2.
      destruct (mle_estimator ms (a_mc a) (a_delta a) ws) as [b|e]; cbn [rbind].
      + exists o. split; [reflexivity|exact F].
      + exists o. split; [reflexivity|exact F7].
    - rewrite (bind_ok _ _ o o o eq_refl). unfold mags_of. rewrite F1, F2.
      destruct (utsu_estimator ms (a_mc a) (a_delta a) ws) as [b|e]; cbn [rbind].
      + exists o. split; [reflexivity|exact F].
      + exists o. split; [reflexivity|exact F7].
    - unfold estimate_positive, run_pos.
      pose proof (order_run false o ms ws ix ts ow b0 mc d dm F) as HO.
      destruct (ordered ms ws ix ts) as [[[[ms1 ws1] ix1] ts1]|e]; cbn [rbind].
      2:{ destruct HO as (o1 & E1 & B1). exists o1. split; [apply bind_err; exact E1|exact B1]. }
      destruct HO as (o1 & E1 & H1). rewrite (bind_ok _ _ _ _ _ E1). clear E1 F1 F2 F3 F4 F5 F6 F7 F8 F9 F10 F o.
      destruct H1 as (F1 & F2 & F3 & F4 & F5 & F6 & F7 & F8 & F9 & F10).
      assert (Em1 : mags_of o1 = ms1) by (unfold mags_of; rewrite F1; reflexivity).
      assert (Ed1 : dmc_of o1 = the_dmc a) by (unfold dmc_of; rewrite F10, Hdm; reflexivity).
      rewrite (bind_ok _ _ o1 o1 o1 eq_refl). rewrite Em1, Ed1.
      set (lg := map (fun x => nleb (the_dmc a - dec_val (a_delta a) / two) x) (np_diff ms1)).
      set (D := if nltb zero (dec_val (a_delta a)) then bin_to_precision (Some (np_diff ms1)) (a_delta a) else Ok (np_diff ms1)).
      assert (ED : (if nltb zero (dec_val (a_delta a)) then lift (bin_to_precision (Some (np_diff ms1)) (a_delta a)) else ret (np_diff ms1)) o1 = (o1, D)).
      { unfold D. destruct (nltb zero _); reflexivity. }
      destruct D as [df|e]; cbn [rbind].
      2:{ exists o1. split; [apply bind_err; exact ED|exact F7]. }
      rewrite (bind_ok _ _ _ _ _ ED).
      rewrite (bind_ok _ _ o1 (set_mags (compress lg df) o1) tt eq_refl).
      unfold idx_of. rewrite F3.
      rewrite (bind_ok _ _ _ (set_idx (compress lg (tl ix1)) (set_mags (compress lg df) o1)) tt eq_refl).
      set (o3 := set_idx (compress lg (tl ix1)) (set_mags (compress lg df) o1)).
      rewrite F2, F4.
      rewrite (bind_ok _ _ o3 (set_weights (option_map (fun w => compress lg (tl w)) ws1) o3) tt).
      2:{ destruct ws1; [reflexivity|]. unfold ret, o3, set_weights, set_idx, set_mags; cbn. rewrite F2. reflexivity. }
      set (o4 := set_weights (option_map (fun w => compress lg (tl w)) ws1) o3).
      rewrite (bind_ok _ _ o4 (set_times (option_map (fun w => compress lg (tl w)) ts1) o4) tt).
      2:{ destruct ts1; [reflexivity|]. unfold ret, o4, o3, set_times, set_weights, set_idx, set_mags; cbn. rewrite F4. reflexivity. }
      set (o5 := set_times (option_map (fun w => compress lg (tl w)) ts1) o4).
      rewrite (bind_ok _ _ o5 o5 o5 eq_refl).
      unfold o5, o4, o3, mags_of, dmc_of; cbn [o_mags o_weights o_dmc set_mags set_idx set_weights set_times].
      rewrite F10, Hdm. cbn [is_pos]. unfold lift.
      destruct (mle_estimator (compress lg df) (the_dmc a) (a_delta a) (option_map (fun w => compress lg (tl w)) ws1)) as [b|e]; cbn [rbind].
      2:{ eexists. split; [reflexivity|]. exact F7. }
      eexists. split; [reflexivity|]. repeat split; cbn; auto. rewrite F10, Hdm. reflexivity.
    - unfold estimate_more_positive, run_more.
      pose proof (order_run true o ms ws ix ts ow b0 mc d dm F) as HO.
      destruct (ordered ms ws ix ts) as [[[[ms1 ws1] ix1] ts1]|e]; cbn [rbind].
      2:{ destruct HO as (o1 & E1 & B1). exists o1. split; [apply bind_err; exact E1|exact B1]. }
      destruct HO as (o1 & E1 & H1). rewrite (bind_ok _ _ _ _ _ E1). clear E1 F1 F2 F3 F4 F5 F6 F7 F8 F9 F10 F o.
      destruct H1 as (F1 & F2 & F3 & F4 & F5 & F6 & F7 & F8 & F9 & F10).
      assert (Em1 : mags_of o1 = ms1) by (unfold mags_of; rewrite F1; reflexivity).
      assert (Ed1 : dmc_of o1 = the_dmc a) by (unfold dmc_of; rewrite F10, Hdm; reflexivity).
      rewrite (bind_ok _ _ o1 o1 o1 eq_refl). rewrite Em1, Ed1.
      set (nxt := find_next_larger ms1 (dec_val (a_delta a)) (Some (the_dmc a))).
      destruct (gather ms1 nxt) as [lg|e] eqn:G1; cbn [rbind].
      2:{ exists o1. split; [apply bind_err; reflexivity|exact F7]. }
      rewrite (bind_ok _ _ o1 o1 lg eq_refl).
      destruct (bin_to_precision (Some (map2 nsub lg ms1)) (a_delta a)) as [df|e]; cbn [rbind].
      2:{ exists o1. split; [apply bind_err; reflexivity|exact F7]. }
      rewrite (bind_ok _ _ o1 o1 df eq_refl).
      set (hn := map (fun j => negb (j =? 0)%nat) nxt).
      rewrite (bind_ok _ _ o1 (set_mags (compress hn df) o1) tt eq_refl).
      set (nx := compress hn nxt). unfold idx_of. rewrite F3.
      destruct (gather ix1 nx) as [ix2|e] eqn:G2; cbn [rbind].
      2:{ eexists. split; [apply bind_err; reflexivity|exact F7]. }
      rewrite (bind_ok _ _ _ (set_mags (compress hn df) o1) ix2 eq_refl).
      set (o3 := set_idx ix2 (set_mags (compress hn df) o1)).
      rewrite (bind_ok _ _ _ o3 tt eq_refl). rewrite F2, F4.
      destruct (ogather ws1 nx) as [ws2|e] eqn:G3; cbn [rbind].
      2:{ eexists. split; [apply bind_err|]. unfold ogather in G3. destruct ws1 as [w1|]; [|discriminate].
          apply bind_err. destruct (gather w1 nx); [discriminate|]. cbn in G3. injection G3 as <-. reflexivity. exact F7. }
      rewrite (bind_ok _ _ o3 (set_weights ws2 o3) tt).
      2:{ unfold ogather in G3. destruct ws1 as [w1|].
          - destruct (gather w1 nx) as [w2|]; [|discriminate]. cbn in G3. injection G3 as <-.
            rewrite (bind_ok _ _ o3 o3 w2 eq_refl). reflexivity.
          - injection G3 as <-. unfold ret, o3, set_weights, set_idx, set_mags; cbn. rewrite F2. reflexivity. }
      set (o4 := set_weights ws2 o3).
      destruct (ogather ts1 nx) as [ts2|e] eqn:G4; cbn [rbind].
      2:{ eexists. split; [apply bind_err|]. unfold ogather in G4. destruct ts1 as [t1|]; [|discriminate].
          apply bind_err. destruct (gather t1 nx); [discriminate|]. cbn in G4. injection G4 as <-. reflexivity. exact F7. }
      rewrite (bind_ok _ _ o4 (set_times ts2 o4) tt).
      2:{ unfold ogather in G4. destruct ts1 as [t1|].
          - destruct (gather t1 nx) as [t2|]; [|discriminate]. cbn in G4. injection G4 as <-.
            rewrite (bind_ok _ _ o4 o4 t2 eq_refl). reflexivity.
          - injection G4 as <-. unfold ret, o4, o3, set_times, set_weights, set_idx, set_mags; cbn. rewrite F4. reflexivity. }
      set (o5 := set_times ts2 o4).
      rewrite (bind_ok _ _ o5 o5 o5 eq_refl).
      unfold o5, o4, o3, mags_of, dmc_of; cbn [o_mags o_weights o_dmc set_mags set_idx set_weights set_times].
      rewrite F10, Hdm. cbn [is_pos]. unfold lift.
      destruct (mle_estimator (compress hn df) (the_dmc a) (a_delta a) ws2) as [b|e]; cbn [rbind].
      2:{ eexists. split; [reflexivity|]. exact F7. }
      eexists. split; [reflexivity|]. repeat split; cbn; auto. rewrite F10, Hdm. reflexivity.
  Qed.

  Lemma base_run k w a o :
    (is_pos k = true -> o_times o = a_times a /\ o_dmc o = Some (the_dmc a)) ->
    let r := let? _ := check a in
             let? ts := f_times k a in
             match f_mags a with
             | [] => Ok (mkout (f_mags a) (f_weights a) (f_idx a) ts (f_mags a) (f_weights a) nnan)
             | _ => run_est k a (f_mags a) (f_weights a) (f_idx a) ts
             end in
    match r with
    | Ok u => exists o', base_calculate srt k w a o = (o', Ok (u_b u)) /\ final k a u o o'
    | Err e => exists o', base_calculate srt k w a o = (o', Err e) /\ o_b o' = o_b o
    end.
  Proof.
    intros Hp r. subst r. unfold base_calculate.
    rewrite (bind_ok _ _ o (set_mags (a_mags a) o) tt eq_refl).
    rewrite (bind_ok _ _ _ (set_mc (a_mc a) (set_mags (a_mags a) o)) tt eq_refl).
    rewrite (bind_ok _ _ _ (set_delta (a_delta a) (set_mc (a_mc a) (set_mags (a_mags a) o))) tt eq_refl).
    set (o1 := set_weights (a_weights a) (set_delta (a_delta a) (set_mc (a_mc a) (set_mags (a_mags a) o)))).
    rewrite (bind_ok _ _ _ o1 tt eq_refl).
    destruct (sanity_run w a o1 eq_refl eq_refl) as (o2 & E2 & D2).
    destruct (check a) as [[]|e] eqn:Hc; cbn [rbind].
    2:{ exists o2. split; [apply bind_err; exact E2|]. destruct D2 as (_ & _ & _ & _ & _ & B & _). exact B. }
    rewrite (bind_ok _ _ _ _ _ E2).
    destruct D2 as (A1 & A2 & A3 & A4 & A5 & A6 & A7 & A8 & A9 & A10).
    cbn in A1, A2, A3, A4, A5, A6, A7, A8, A9, A10.
    assert (Ht : is_pos k = true -> o_times o2 = a_times a) by (intros H; rewrite A9; apply Hp; exact H).
    pose proof (filter_run k w a o2 A1 A4 Hc Ht) as HF.
    destruct (f_times k a) as [ts|e] eqn:Ets; cbn [rbind].
    2:{ destruct HF as (o3 & E3 & B3). exists o3. split; [apply bind_err; exact E3|congruence]. }
    destruct HF as (o3 & E3 & B1 & B2 & B3 & B4 & B5 & B6 & B7 & B8 & B9 & B10).
    rewrite (bind_ok _ _ _ _ _ E3). rewrite (bind_ok _ _ o3 o3 o3 eq_refl).
    assert (Em3 : mags_of o3 = f_mags a) by (unfold mags_of; rewrite B1; reflexivity).
    rewrite Em3, B4.
    rewrite (bind_ok _ _ o3 (set_orig_mags (f_mags a) o3) tt eq_refl).
    set (o4 := mkobj (o_mags o3) (o_mc o3) (o_delta o3) (o_weights o3) (o_idx o3) (o_b o3) (Some (f_mags a))
                 (match f_weights a with Some x => Some x | None => o_orig_weights o end) (o_times o3) (o_dmc o3) (o_warnings o3)).
    rewrite (bind_ok _ _ _ o4 tt).
    2:{ unfold o4. destruct (f_weights a); [reflexivity|]. unfold ret, set_orig_mags. rewrite B8, A8. reflexivity. }
    assert (F4 : fld o4 (f_mags a) (f_weights a) (f_idx a) (if is_pos k then ts else o_times o) (f_mags a)
                     (match f_weights a with Some x => Some x | None => o_orig_weights o end) (o_b o)
                     (Some (a_mc a)) (Some (a_delta a)) (if is_pos k then Some (the_dmc a) else o_dmc o)).
    { unfold fld, o4; cbn. repeat split; auto; try congruence.
      - rewrite B9, A9. reflexivity.
      - rewrite B10, A10. destruct (is_pos k) eqn:Ek; [apply Hp; reflexivity|reflexivity]. }
    destruct (f_mags a) as [|m0 mt] eqn:Efm.
    - eexists. split; [rewrite (bind_ok _ _ _ (set_b nnan o4) tt eq_refl); reflexivity|].
      destruct F4 as (G1 & G2 & G3 & G4 & G5 & G6 & G7 & G8 & G9 & G10).
      unfold final; cbn [u_mags u_weights u_idx u_times u_omags u_oweights u_b].
      unfold set_b; cbn [o_mags o_mc o_delta o_weights o_idx o_b o_orig_mags o_orig_weights o_times o_dmc].
      repeat split; auto.
    - rewrite <- Efm in *.
      assert (F4' : fld o4 (f_mags a) (f_weights a) (f_idx a) (if is_pos k then ts else o_times o) (f_mags a)
                     (match f_weights a with Some x => Some x | None => o_orig_weights o end) (o_b o)
                     (Some (a_mc a)) (Some (a_delta a)) (if is_pos k then Some (the_dmc a) else o_dmc o)) by exact F4.
      apply (est_run k a) in F4'; [|destruct (is_pos k); reflexivity].
      assert (Q : forall e, run_est k a (f_mags a) (f_weights a) (f_idx a) (if is_pos k then ts else o_times o) = Err e <->
                       run_est k a (f_mags a) (f_weights a) (f_idx a) ts = Err e).
      { intros e. destruct k; cbn [is_pos run_est]; try tauto.
        - destruct (mle_estimator _ _ _ _); cbn; [split; discriminate|tauto].
        - destruct (utsu_estimator _ _ _ _); cbn; [split; discriminate|tauto]. }
      destruct (run_est k a (f_mags a) (f_weights a) (f_idx a) ts) as [u|e] eqn:Er.
      + destruct (run_est k a (f_mags a) (f_weights a) (f_idx a) (if is_pos k then ts else o_times o)) as [u'|e'] eqn:Er'.
        2:{ specialize (proj1 (Q e') eq_refl). discriminate. }
        destruct F4' as (o5 & E5 & G1 & G2 & G3 & G4 & G5 & G6 & G7 & G8 & G9 & G10).
        assert (U : u_mags u' = u_mags u /\ u_weights u' = u_weights u /\ u_idx u' = u_idx u /\
                    u_times u' = (if is_pos k then u_times u else o_times o) /\
                    u_omags u' = u_omags u /\ u_oweights u' = u_oweights u /\ u_b u' = u_b u).
        { destruct k; cbn [is_pos run_est] in *.
          - destruct (mle_estimator _ _ _ _); [|discriminate]. cbn in *. injection Er as <-. injection Er' as <-. repeat split.
          - destruct (utsu_estimator _ _ _ _); [|discriminate]. cbn in *. injection Er as <-. injection Er' as <-. repeat split.
          - rewrite Er in Er'. injection Er' as <-. repeat split.
          - rewrite Er in Er'. injection Er' as <-. repeat split. }
        destruct U as (U1 & U2 & U3 & U4 & U5 & U6 & U7).
        exists (set_b (u_b u) o5). split.
        * rewrite (bind_ok _ _ _ _ _ E5). rewrite U7. reflexivity.
        * unfold final, set_b; cbn [o_mags o_mc o_delta o_weights o_idx o_b o_orig_mags o_orig_weights o_times o_dmc].
          repeat split; try congruence.
          -- rewrite G6, U6. destruct (u_oweights u) eqn:Ew; [reflexivity|].
             destruct (f_weights a) eqn:Efw; [|reflexivity].
             exfalso. clear - Er Ew Efw. destruct k; cbn [run_est] in Er.
             ++ destruct (mle_estimator _ _ _ _); [|discriminate]. injection Er as <-. discriminate.
             ++ destruct (utsu_estimator _ _ _ _); [|discriminate]. injection Er as <-. discriminate.
             ++ unfold run_pos in Er. destruct (ordered _ _ _ _) as [[[[m1 w1] i1] t1]|]; [|discriminate]. cbn [rbind] in Er.
                match type of Er with (let? x := ?X in _) = _ => destruct X end; [|discriminate]. cbn [rbind] in Er.
                destruct (mle_estimator _ _ _ _); [|discriminate]. cbn [rbind] in Er. injection Er as <-. discriminate.
             ++ unfold run_more in Er. destruct (ordered _ _ _ _) as [[[[m1 w1] i1] t1]|] eqn:EO; [|discriminate]. cbn [rbind] in Er.
                assert (w1 <> None).
                { unfold ordered in EO. destruct ts; [|congruence].
                  destruct (gather (f_mags a) _); [|discriminate]. cbn [rbind] in EO. unfold ogather in EO.
                  destruct (gather l _); [|discriminate]. cbn [rbind rmap] in EO.
                  destruct (gather l0 _); [|discriminate]. cbn [rbind rmap] in EO.
                  destruct (gather (f_idx a) _); [|discriminate]. cbn [rbind rmap] in EO. congruence. }
                repeat match type of Er with (let? x := ?X in _) = _ => destruct X; [|discriminate]; cbn [rbind] in Er end.
                injection Er as <-. cbn in Ew. congruence.
      + destruct (run_est k a (f_mags a) (f_weights a) (f_idx a) (if is_pos k then ts else o_times o)) as [u'|e'] eqn:Er'.
        1:{ specialize (proj2 (Q e) eq_refl). discriminate. }
        specialize (proj1 (Q e') eq_refl). intros H. injection H as ->.
        destruct F4' as (o5 & E5 & G5). exists o5. split; [apply bind_err; exact E5|exact G5].
  Qed.

  Theorem calculate_run k w a o :
    match run k a with
    | Ok u => exists o', calculate srt k w a o = (o', Ok (u_b u)) /\ final k a u o o'
    | Err e => exists o', calculate srt k w a o = (o', Err e) /\ o_b o' = o_b o
    end.
  Proof.
    assert (B : forall o, (is_pos k = true -> o_times o = a_times a /\ o_dmc o = Some (the_dmc a)) ->
      is_pos k && nltb (the_dmc a) zero = false ->
      match run k a with
      | Ok u => exists o', base_calculate srt k w a o = (o', Ok (u_b u)) /\ final k a u o o'
      | Err e => exists o', base_calculate srt k w a o = (o', Err e) /\ o_b o' = o_b o
      end).
    { intros o0 H0 H1. pose proof (base_run k w a o0 H0) as H. unfold run. rewrite H1. cbn [rbind]. exact H. }
    destruct (is_pos k) eqn:Ek.
    - assert (EC : calculate srt k w a o =
        bind (modify (set_times (a_times a))) (fun _ => bind (modify (set_dmc (the_dmc a))) (fun _ =>
          bind (if nltb (the_dmc a) zero then raise ValueError else ret tt) (fun _ =>
          bind (if nltb (the_dmc a) (dec_val (a_delta a)) then warn w "dmc small" else ret tt) (fun _ =>
            base_calculate srt k w a)))) o) by (destruct k; try discriminate; reflexivity).
      rewrite EC. clear EC.
      rewrite (bind_ok _ _ o (set_times (a_times a) o) tt eq_refl).
      rewrite (bind_ok _ _ _ (set_dmc (the_dmc a) (set_times (a_times a) o)) tt eq_refl).
      set (o1 := set_dmc (the_dmc a) (set_times (a_times a) o)).
      destruct (nltb (the_dmc a) zero) eqn:Ed.
      + unfold run. rewrite Ek, Ed. cbn [andb rbind]. exists o1. split; [apply bind_err; reflexivity|reflexivity].
      + rewrite (bind_ok _ _ _ o1 tt eq_refl).
        assert (S : exists o2, (if nltb (the_dmc a) (dec_val (a_delta a)) then warn w "dmc small" else ret tt) o1 = (o2, Ok tt) /\ eqw o2 o1).
        { destruct (nltb (the_dmc a) (dec_val (a_delta a))); [apply warn_run|exists o1; split; [reflexivity|apply eqw_refl]]. }
        destruct S as (o2 & E2 & D2). rewrite (bind_ok _ _ _ _ _ E2).
        destruct D2 as (A1 & A2 & A3 & A4 & A5 & A6 & A7 & A8 & A9 & A10).
        cbn in A1, A2, A3, A4, A5, A6, A7, A8, A9, A10.
        specialize (B o2 (fun _ => conj A9 A10) eq_refl).
        destruct (run k a) as [u|e].
        * destruct B as (o' & E' & F'). exists o'. split; [exact E'|].
          unfold final in *. rewrite Ek in *. rewrite A8 in F'. exact F'.
        * destruct B as (o' & E' & F'). exists o'. split; [exact E'|congruence].
    - assert (EC : calculate srt k w a o = base_calculate srt k w a o) by (destruct k; try discriminate; reflexivity).
      rewrite EC. apply B; [discriminate|reflexivity].
  Qed.
End Run.
