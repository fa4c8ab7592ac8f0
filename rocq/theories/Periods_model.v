(** * Model of seismostats/analysis/bvalue/kijko_smit.py and weichert.py

    The completeness table is the list of its rows (magnitude, year), the years of the events
    are given as numbers (kijko_smit.py:91, weichert.py:90 compute them from the times).
    np.searchsorted is modelled as the number of smaller entries, which is what it returns for
    sorted arrays; the code relies on the years of the table decreasing (it does not check it).
    np.arange(a, b, d) is a, a + d, ..., up to (excluding) b.  Not modelled: the text of
    warnings; delta_m = 0 and NaN. *)
From Coq Require Import ZArith Bool List String.
From Verif Require Import Base Num BValue_model.
Import ListNotations.

Section Periods.
  Context {T : Type} {N : Num T}.
  Local Open Scope num_scope.

  (** the assert statement: kijko_smit.py:62-88, weichert.py:60-90 *)
  Definition assert_ (b : bool) : res unit := if b then Ok tt else Err AssertionError.
  (** np.searchsorted(arr, v), side left *)
  Definition searchsorted (arr : list T) (v : T) : nat := List.length (filter (fun a => a <? v) arr).
  (** np.all(np.ediff1d(l) >= 0) *)
  Fixpoint ascending (l : list T) : bool :=
    match l with
    | x :: ((y :: _) as t) => ((y - x) >=? zero) && ascending t
    | _ => true
    end.
  (** the checks both functions start with: kijko_smit.py:62-88, weichert.py:65-87.  The second
      assert tests a list of truth values: it holds for every non-empty list. *)
  Definition period_checks (mags years : list T) (table : list (T * T)) (delta_m : T) (b_parameter : string) : res unit :=
    let? _ := assert_ (List.length mags =? List.length years)%nat in
    let? _ := assert_ (ascending (map fst table)) in
    let? _ := match mags with [] => Err AssertionError | _ => match table with [] => Err IndexError | _ => Ok tt end end in
    let? _ := assert_ (zero <? delta_m) in
    assert_ ((b_parameter =? "b_value")%string || (b_parameter =? "beta")%string).
  (** kijko_smit.py:78-79: is a warning issued *)
  Definition warns (option_warnings : bool) (mags : list T) (table : list (T * T)) : bool :=
    option_warnings && match map fst table with
                       | [] => false
                       | c :: cs => negb (forallb (fun m => amin c cs <=? m) mags)
                       end.
  (** kijko_smit.py:94: None and 0 count as not given *)
  Definition the_last_year (last_year : option T) (years : list T) : T :=
    let mx := match years with [] => nnan | y :: ys => amax y ys end in
    match last_year with None => mx | Some y => if y =? zero then mx else y end.

  (** ** kijko_smit.py:100-113: the sub-catalogue of row [idx] *)
  Definition period_index (table : list (T * T)) (year : T) : nat := searchsorted (map (fun r => nopp (snd r)) table) (nopp year).
  (** kijko_smit.py:108-112 *)
  Definition sub_catalogue (table : list (T * T)) (events : list (T * T)) (idx : nat) (cm : T) : list T :=
    map fst (filter (fun e => (period_index table (snd e) =? idx)%nat && (cm <? fst e)) events).
  (** kijko_smit.py:104-113 *)
  Definition sub_catalogues (table : list (T * T)) (events : list (T * T)) : list (list T) :=
    map (fun i => sub_catalogue table events (fst i) (fst (snd i))) (zip (seq 0 (List.length table)) table).
  Record ks_out := mkks { ks_b : T; ks_std : T; ks_rate : T; ks_a : T }.
  (** kijko_smit.py:115-145 *)
  Definition ks_beta (table : list (T * T)) (subs : list (list T)) (ncomplete : nat) : res T :=
    if (ncomplete =? 0)%nat then Err ZeroDivisionError else
    let terms := map2 (fun sub r => (ofnat (List.length sub) / ofnat ncomplete) / (one / (nmean sub - fst r))) subs table in
    Ok (one / nsum terms).
  (** kijko_smit.py:133-138 *)
  Definition ks_denominator (table : list (T * T)) (last_year beta cm0 : T) : T :=
    fold_left (fun acc r => acc + (last_year - snd r) * nexp (nopp beta * (fst r - cm0))) table zero.
  (** kijko_smit.py:10-145 *)
  Definition estimate_b_kijko_smit (mags years : list T) (table : list (T * T)) (last_year : option T) (delta_m : T) (b_parameter : string) : res ks_out :=
    let? _ := period_checks mags years table delta_m b_parameter in
    let last_year := the_last_year last_year years in
    let subs := sub_catalogues table (zip mags years) in
    let ncomplete := list_sum (map (@List.length T) subs) in
    let? beta := ks_beta table subs ncomplete in
    let std := beta / nsqrt (ofnat ncomplete) in
    let cm0 := match table with [] => nnan | r :: _ => fst r end in
    let rate := ofnat ncomplete / ks_denominator table last_year beta cm0 in
    let a_val := nlog10 rate + (beta / nln (ofZ 10)) * (cm0 + delta_m * lit 5 1) in
    if (b_parameter =? "b_value")%string then Ok (mkks (beta_to_b_value beta) (beta_to_b_value std) rate a_val)
    else Err UnboundLocalError.

  (** ** weichert.py *)
  (** rounding of interval edges to three decimals inside pd.cut *)
  Variable round_edge : T -> T.
  (** scipy's minimize: from the objective and the start value *)
  Variable minimize : (T -> T) -> T -> T.

  (** weichert.py:99-117: year of completeness of a magnitude; -1 below the table *)
  Definition completeness_start (table : list (T * T)) (m : T) : T :=
    match searchsorted (map fst table) m with
    | O => ofZ (-1)
    | S i => match nth_error table i with Some r => snd r | None => nnan end
    end.
  (** weichert.py:122 *)
  Definition is_complete (table : list (T * T)) (e : T * T) : bool :=
    let s := completeness_start table (fst e) in (zero <? s) && ((snd e - s) >=? zero).
  (** weichert.py:131-141: pd.cut with right=False; [None]: outside all intervals *)
  Definition n_edges (lo hi step : T) : nat := match nceilZ ((hi - lo) / step) with Some z => Z.to_nat z | None => 0%nat end.
  (** weichert.py:132-136: the elements of np.arange *)
  Definition edge (lo step : T) (i : nat) : T := lo + ofnat i * step.
  (** weichert.py:129-138: i.left for i in pd.cut(...) *)
  Definition cut_left (lo hi step m : T) : option T :=
    let inside i := (edge lo step i <=? m) && (m <? edge lo step (S i)) in
    match filter inside (seq 0 (pred (n_edges lo hi step))) with
    | i :: _ => Some (round_edge (edge lo step i))
    | [] => None
    end.
  (** weichert.py:123-151: events per (left edge, completeness year), sorted; a magnitude outside the bins
      is a float NaN without attribute left *)
  Definition key_le (a b : T * T) : bool := if fst a =? fst b then snd a <=? snd b else fst a <=? fst b.
  (** weichert.py:124-148: groupby(...).size(): the distinct keys with their numbers *)
  Definition key_eq (a b : T * T) : bool := (fst a =? fst b) && (snd a =? snd b).
  (** weichert.py:124-148: groupby(...).size(): the distinct keys with their numbers *)
  Fixpoint count_keys (l : list (T * T)) : list ((T * T) * nat) :=
    match l with
    | [] => []
    | k :: t => match count_keys t with
                | (k', n) :: r => if key_eq k k' then (k', S n) :: r else (k, 1%nat) :: (k', n) :: r
                | [] => [(k, 1%nat)]
                end
    end.
  (** weichert.py:127-141: i.left fails with AttributeError for an event outside the bins *)
  Fixpoint cut_all (lo hi step : T) (table : list (T * T)) (events : list (T * T)) : res (list (T * T)) :=
    match events with
    | [] => Ok []
    | e :: t => match cut_left lo hi step (fst e) with
                | None => Err AttributeError
                | Some l => let? r := cut_all lo hi step table t in Ok ((l, completeness_start table (fst e)) :: r)
                end
    end.
  Definition complete_events (table : list (T * T)) (mag_max delta_m : T) (events : list (T * T)) : res (list ((T * T) * nat)) :=
    let lo := match table with [] => nnan | r :: _ => fst r end in
    let? keys := cut_all lo (mag_max + lit 1 2) delta_m table (filter (is_complete table) events) in
    Ok (count_keys (isort key_le keys)).

  (** weichert.py:218-243 [_weichert_objective_function] *)
  Definition row_t (last_year : T) (r : (T * T) * nat) : T := last_year - snd (fst r).
  (** weichert.py:168, 228: mag_left_edge + delta_m * 0.5 *)
  Definition row_m (delta_m : T) (r : (T * T) * nat) : T := fst (fst r) + delta_m * lit 5 1.
  (** weichert.py:240: num *)
  Definition row_n (r : (T * T) * nat) : T := ofnat (snd r).
  (** weichert.py:173, 203, 213, 241: num.sum() *)
  Definition total (rows : list ((T * T) * nat)) : nat := list_sum (map snd rows).
  (** np.sum over the rows: weichert.py:167-201, 229-241 *)
  Definition w_sum (f : (T * T) * nat -> T) (rows : list ((T * T) * nat)) : T := nsum (map f rows).
  (** weichert.py:218-243 *)
  Definition objective (last_year delta_m : T) (rows : list ((T * T) * nat)) (beta : T) : T :=
    let t := row_t last_year in let m := row_m delta_m in
    let nom := w_sum (fun r => t r * m r * nexp (nopp beta * m r)) rows in
    let denom := w_sum (fun r => t r * nexp (nopp beta * m r)) rows in
    let right := w_sum (fun r => row_n r * m r) rows / ofnat (total rows) in
    nabs (nom / denom - right).
  Record w_out := mkw { w_b : T; w_std : T; w_rate : T; w_std_rate : T; w_a : T }.
  (** weichert.py:65-215 *)
  Definition estimate_b_weichert (mags years : list T) (table : list (T * T)) (mag_max : T) (last_year : option T) (delta_m : T) (b_parameter : string) : res w_out :=
    let? _ := period_checks mags years table delta_m b_parameter in
    let last_year := the_last_year last_year years in
    let? rows := complete_events table mag_max delta_m (zip mags years) in
    let beta := minimize (objective last_year delta_m rows) (nln (ofZ 10)) in
    let t := row_t last_year in let m := row_m delta_m in
    let e r := nexp (nopp beta * m r) in
    let multiplier := w_sum e rows / w_sum (fun r => t r * e r) rows in
    let n := ofnat (total rows) in
    let rate := n * multiplier in
    match rows with
    | [] => Err IndexError
    | r0 :: _ =>
        let a_val := nlog10 rate + (beta / nln (ofZ 10)) * fst (fst r0) in
        let nominator := square (w_sum (fun r => t r * e r) rows) in
        let d1 := square (w_sum (fun r => t r * m r * e r) rows) in
        let d2 := nsqrt nominator * w_sum (fun r => t r * square (m r) * e r) rows in
        let var := nopp (one / n) * nominator / (d1 - d2) in
        let std := nsqrt var in
        if (b_parameter =? "b_value")%string
        then Ok (mkw (beta_to_b_value beta) (beta_to_b_value std) rate (rate / nsqrt n) a_val)
        else Err UnboundLocalError
    end.
End Periods.
Arguments ks_out : clear implicits.
Arguments w_out : clear implicits.
