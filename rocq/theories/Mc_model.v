(** * Model of seismostats/analysis/estimate_mc.py *)
From Coq Require Import ZArith List Bool String.
From Verif Require Import Base Num Binning_model BValue_model Simulate_model.
Import ListNotations.

Section Mc.
  Context {T : Type} {N : Num T}.
  Local Open Scope num_scope.

  (** estimate_mc.py:18-42 [cdf_discrete_exp] *)
  Definition cdf_discrete_exp (mags : list T) (mc : T) (d : T) (beta : T) : list T * list T :=
    let x := np_unique (isort nsort_le mags) in
    (x, map (fun v => one - nexp (nopp beta * (v + d - mc))) x).

  (** np.min / np.max of an array: ValueError if it is empty *)
  (** estimate_mc.py:80, 117, 120, 132, 233, 499, 507, 545 (numpy) *)
  Definition np_min (l : list T) : res T := match l with [] => Err ValueError | a :: t => Ok (amin a t) end.
  (** estimate_mc.py:80, 117, 120, 132, 233, 499, 507, 545 (numpy) *)
  Definition np_max (l : list T) : res T := match l with [] => Err ValueError | a :: t => Ok (amax a t) end.

  (** 94-103 and 116-122: the bins up to [top] and the theoretical distribution.  The result
      is (edges, y_th). *)
  Definition ks_bins (mc top : T) (delta : dec) (beta : T) : res (list T * list T) :=
    let d := dec_val delta in
    let? ar := np_arange mc (top + ofZ 3 / two * d) d in
    let? x_bins := bin_to_precision (Some ar) delta in
    let x := removelast x_bins in
    Ok (map (fun e => e - d / two) x_bins, snd (cdf_discrete_exp x mc d beta)).

  (** np.histogram with weights (None: unit weights; weights of another length: ValueError) *)
  (** estimate_mc.py:115, 129 (numpy) *)
  Definition np_histogram (xs : list T) (ws : option (list T)) (edges : list T) : res (list T) :=
    match ws with
    | None => Ok (histogram xs (unit_weights xs) edges)
    | Some w => if (List.length w =? List.length xs)%nat then Ok (histogram xs w edges) else Err ValueError
    end.

  (** 110-112, 124-127: the largest difference between the empirical and the theoretical
      distribution.  Arrays of different lengths cannot be subtracted (ValueError). *)
  Definition ks_distance (sample : list T) (ws : option (list T)) (bins : list T * list T) : res T :=
    let '(edges, y_th) := bins in
    let? h := np_histogram sample ws edges in
    let total := nsum h in
    let y_emp := map (fun c => c / total) (np_cumsum h) in
    if (List.length y_emp =? List.length y_th)%nat then np_max (map2 (fun a b => nabs (a - b)) y_emp y_th) else Err ValueError.

  (** 45-130 [ks_test_gr]; [w] is the option "warnings"; [ks_ds] the given distances; [u i],
      [e i] the random numbers of the i-th simulation, [n] their number.  The result is
      (p-value, distance, distances). *)
  Definition ks_p (ks_ds : list T) (d : T) : res T :=
    match ks_ds with
    | [] => Err ZeroDivisionError
    | _ => Ok (ofnat (count (fun x => x >=? d) ks_ds) / ofnat (List.length ks_ds))
    end.
  Definition ks_test_gr (u e : nat -> nat -> T) (w : bool) (mags : list T) (mc : T) (delta : dec) (b : T) (n : nat)
             (ks_ds : option (list T)) (weights : option (list T)) : res (T * T * list T) :=
    let rest :=
      let beta := b_value_to_beta b in
      let n_sample := List.length mags in
      let? (bins, ks) :=
        match ks_ds with
        | None =>
          let top := one / b * nlog10 (ofnat n_sample * ofnat n * ofZ 1000) + mc in
          let? bins := ks_bins mc top delta beta in
          let? ks := mapM (fun ii => let? sim := simulate_magnitudes_binned (u ii) (e ii) n_sample b mc delta None PB in
                                     ks_distance sim weights bins) (seq 0 n) in
          Ok (bins, ks)
        | Some ks => let? top := np_max mags in let? bins := ks_bins mc top delta beta in Ok (bins, ks)
        end in
      let? d := ks_distance mags weights bins in
      let? p := ks_p ks d in
      Ok (p, d, ks) in
    if w then
      let? _ := np_min mags in
      if (List.length (np_unique mags) =? 1)%nat then Ok (zero, one, []) else rest
    else rest.

  (** ** estimate_mc_ks (138-324) *)
  (** np.sort(np.unique(.)) or the default 226-229 *)
  Definition mcs_of (mags : list T) (delta : dec) (mcs : option (list T)) : res (list T) :=
    match mcs with
    | None => let? lo := np_min mags in let? hi := np_max mags in
              let? ar := np_arange lo hi (dec_val delta) in bin_to_precision (Some ar) delta
    | Some l => Ok (isort nsort_le (np_unique l))
    end.
  (** estimate_mc.py:262-263, 533, 548: magnitudes[magnitudes >= mc - delta_m / 2] *)
  Definition above (mags : list T) (delta : dec) (mc : T) : list T :=
    filter (fun m => m >=? (mc - dec_val delta / two)) mags.
  (** one pass of the loop (261-283); [o] is the shared estimator object, [kw] the keyword
      arguments, which are passed on as they are, whatever sample is tested.  The
      result is (p, ks_d, b). *)
  Definition ks_one (srt : list T -> list nat) (k : kind) (kw : @bkwargs T) (u e : nat -> nat -> nat -> T) (w : bool)
             (mags : list T) (delta : dec) (b_value : option T) (n : nat) (ks_ds_list : option (list (list T)))
             (ii : nat) (mc : T) (o : @obj T) : @obj T * res (T * T * T) :=
    let sample := above mags delta mc in
    let '(o, rb) := match b_value with
                    | None => let '(o', r) := calculate srt k w (with_kw sample mc delta kw) o in
                              (o', let? _ := r in BValue_model.b_value o')
                    | Some b => (o, Ok b)
                    end in
    (o, let? b := rb in
        let? ks := match ks_ds_list with
                   | None => Ok None
                   | Some l => match nth_error l ii with Some x => Ok (Some x) | None => Err IndexError end
                   end in
        let? r := ks_test_gr (u ii) (e ii) w sample mc delta b n ks None in
        Ok (fst (fst r), snd (fst r), b)).
  (** the loop (254-293): the tested magnitudes with p, distance and b *)
  Fixpoint ks_loop (srt : list T -> list nat) (k : kind) (kw : @bkwargs T) (u e : nat -> nat -> nat -> T) (w : bool)
           (mags : list T) (delta : dec) (b_value : option T) (n : nat) (ks_ds_list : option (list (list T)))
           (p_pass : T) (stop : bool) (ii : nat) (mcs : list T) (o : @obj T) : res (list (T * (T * T * T))) :=
    match mcs with
    | [] => Ok []
    | mc :: rest =>
      let '(o', r) := ks_one srt k kw u e w mags delta b_value n ks_ds_list ii mc o in
      let? x := r in
      if (fst (fst x) >=? p_pass) && stop then Ok [(mc, x)]
      else let? xs := ks_loop srt k kw u e w mags delta b_value n ks_ds_list p_pass stop (S ii) rest o' in Ok ((mc, x) :: xs)
    end.
  Record ks_result := mkks {
    ks_best : option (T * T);      (* best_mc and best_b_value *)
    ks_tested : list (T * (T * T * T)) }.   (* mcs_tested with p_values, ks_ds, b_values_tested *)
  Definition estimate_mc_ks (srt : list T -> list nat) (k : kind) (kw : @bkwargs T) (u e : nat -> nat -> nat -> T) (w : bool)
             (mags : list T) (delta : dec) (mcs_test : option (list T)) (p_pass : T) (stop : bool) (b_value : option T)
             (n : nat) (ks_ds_list : option (list (list T))) : res ks_result :=
    let? mcs := mcs_of mags delta mcs_test in
    let? _ := match b_value with
              | None => let? ok := binning_test mags delta (lit 1 15) false in if ok then Ok tt else Err ValueError
              | Some _ => Ok tt
              end in
    let? _ := if w then
                let? _ := binning_test mags delta (lit 1 15) false in
                let? _ := binning_test mcs delta (lit 1 15) false in Ok tt
              else Ok tt in
    let? tested := ks_loop srt k kw u e w mags delta b_value n ks_ds_list p_pass stop 0 mcs new_obj in
    Ok (mkks (option_map (fun t => (fst t, snd (snd t))) (find (fun t => fst (fst (snd t)) >=? p_pass) tested)) tested).

  (** ** estimate_mc_maxc (327-403) *)
  Fixpoint argmax_from (best : nat) (bv : T) (ii : nat) (l : list T) : nat :=
    match l with
    | [] => best
    | x :: t => if bv <? x then argmax_from ii x (S ii) t else argmax_from best bv (S ii) t
    end.
  (** np.argmax of an array without NaN: the first maximum *)
  (** estimate_mc.py:305-306, 402 (numpy) *)
  Definition np_argmax (l : list T) : res nat :=
    match l with [] => Err ValueError | x :: t => Ok (argmax_from 0 x 1 t) end.
  Definition estimate_mc_maxc (mags : list T) (fmd_bin : dec) (correction : T) : res T :=
    let mags := filter (fun m => negb (nisnan m)) mags in
    let? (bins, counts, _) := get_fmd mags fmd_bin None Center in
    let? i := np_argmax counts in
    match nth_error bins i with Some b => Ok (b + correction) | None => Err IndexError end.

  (** ** estimate_mc_b_stability (406-582) *)
  (** python slice xs[:z] for an integer z *)
  (** estimate_mc.py:504, 564 (Python) *)
  Definition upto {A} (z : Z) (xs : list A) : list A :=
    if (z <? 0)%Z then firstn (Z.to_nat (Z.of_nat (List.length xs) + z)) xs else firstn (Z.to_nat z) xs.
  (** estimate_mc.py:498-510 *)
  Definition stab_mcs (mags : list T) (delta : dec) (range : T) (steps : nat) (mcs : option (list T)) : res (list T) :=
    match mcs with
    | None =>
      let? lo := np_min mags in let? hi := np_max mags in
      let? ar := np_arange lo hi (dec_val delta) in
      let? mcs := bin_to_precision (Some ar) delta in
      if (List.length mcs <=? steps)%nat then Err ValueError else Ok (upto (- Z.of_nat steps + 1) mcs)
    | Some l =>
      let? hi := np_max mags in
      let l := filter (fun c => (c + range) <=? hi) l in
      if (List.length l <? 1)%nat then Err ValueError else Ok l
    end.
  (** one pass (513-543): b, std, mean b over the range; the result is (b, diff_b) *)
  Fixpoint b_over (srt : list T -> list nat) (k : kind) (kw : @bkwargs T) (w : bool) (mags : list T) (delta : dec)
           (mcs : list T) (o : @obj T) : @obj T * res (list T) :=
    match mcs with
    | [] => (o, Ok [])
    | c :: rest =>
      let '(o, r) := calculate srt k w (with_kw (above mags delta c) c delta kw) o in
      match (let? _ := r in b_value o) with
      | Err e => (o, Err e)
      | Ok b => let '(o, rs) := b_over srt k kw w mags delta rest o in (o, rmap (cons b) rs)
      end
    end.
  (** estimate_mc.py:533-553: one candidate mc *)
  Definition stab_one (srt : list T -> list nat) (k : kind) (kw : @bkwargs T) (draws : list (list nat)) (w : bool)
             (mags : list T) (delta : dec) (range : T) (steps : nat) (mc : T) (o : @obj T) : @obj T * res (T * T) :=
    let '(o, r) := calculate srt k w (with_kw (above mags delta mc) mc delta kw) o in
    match (let? _ := r in let? b := b_value o in
           let? s := match k with BMorePositive => more_positive_std srt w draws o | _ => est_std o end in
           let? ar := np_arange mc (mc + range) (dec_val delta) in
           let? hi := np_max mags in
           Ok (b, s, filter (fun c => c <=? hi) ar)) with
    | Err e => (o, Err e)
    | Ok (b, s, mc_plus) =>
      let '(o, rs) := b_over srt k kw w mags delta mc_plus o in
      (o, let? b_ex := rs in Ok (b, nabs (nsum b_ex / ofnat steps - b) / s))
    end.
  (** python's builtin min of a non-empty list *)
  (** estimate_mc.py:560: min(diff_bs) *)
  Definition pymin (x : T) (l : list T) : T := fold_left (fun a b => if b <? a then b else a) l x.
  (** estimate_mc.py:560: min(diff_bs) *)
  Definition pymin_all (l : list T) : T := match l with [] => nnan | x :: t => pymin x t end.
  (** the loop: [done] are the diff_bs so far *)
  (** estimate_mc.py:528-565 *)
  Fixpoint stab_loop (srt : list T -> list nat) (k : kind) (kw : @bkwargs T) (draws : nat -> list (list nat)) (w : bool)
           (mags : list T) (delta : dec) (range : T) (steps : nat) (stop : bool) (ii : nat) (mcs : list T)
           (diffs : list T) (best : option (T * T)) (o : @obj T) : res (option (T * T) * list (T * (T * T))) :=
    match mcs with
    | [] => Ok (best, [])
    | mc :: rest =>
      let '(o', r) := stab_one srt k kw (draws ii) w mags delta range steps mc o in
      let? (b, diff) := r in
      let diffs' := diffs ++ [diff] in
      if diff <=? one then
        let best' := if diff =? pymin_all diffs' then Some (mc, b) else best in
        if stop then Ok (best', [(mc, (b, diff))])
        else let? (bb, l) := stab_loop srt k kw draws w mags delta range steps stop (S ii) rest diffs' best' o' in Ok (bb, (mc, (b, diff)) :: l)
      else let? (bb, l) := stab_loop srt k kw draws w mags delta range steps stop (S ii) rest diffs' best o' in Ok (bb, (mc, (b, diff)) :: l)
    end.
  Record stab_result := mkstab {
    st_mc : option T;               (* the returned magnitude *)
    st_b : option T;                (* best_b_value *)
    st_tested : list (T * (T * T)) (* mcs_tested, b_values_tested, diff_bs *) }.
  (** `if best_mc` is false for None and for 0.0 *)
  Definition estimate_mc_b_stability (srt : list T -> list nat) (k : kind) (kw : @bkwargs T) (draws : nat -> list (list nat)) (w : bool)
             (mags : list T) (delta : dec) (mcs_test : option (list T)) (stop : bool) (range : T) : res stab_result :=
    let? ar := np_arange zero range (dec_val delta) in
    let steps := List.length ar in
    let? mcs := stab_mcs mags delta range steps mcs_test in
    let? ok := binning_test mags delta (lit 1 15) false in
    if negb ok then Err ValueError else
    let? _ := if w then let? _ := binning_test mcs delta (lit 1 15) false in Ok tt else Ok tt in
    let? (best, tested) := stab_loop srt k kw draws w mags delta range steps stop 0 mcs [] None new_obj in
    let? out := match best with
                | Some (c, _) => if c =? zero then Ok None
                                 else let? l := bin_to_precision (Some [c]) delta in Ok (hd_error l)
                | None => Ok None
                end in
    Ok (mkstab out (option_map snd best) tested).
End Mc.
Arguments ks_result : clear implicits.
Arguments stab_result : clear implicits.
