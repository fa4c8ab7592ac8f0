(** * Model of seismostats/utils/simulate_distributions.py, of analysis/lilliefors.py and of
    BValueEstimator.p_lilliefors *)
From Coq Require Import ZArith List Bool String.
From Verif Require Import Base Num Binning_model BValue_model.
Import ListNotations.

Section Simulate.
  Context {T : Type} {N : Num T}.
  Local Open Scope num_scope.

  (** simulate_distributions.py:9-47 [simulate_magnitudes] for a scalar beta.  The random
      generator is an argument: [u] are the values of np.random.uniform(0, 1), [e] those of
      the standard exponential distribution; np.random.exponential(s) is s times [e].
      `if mag_max:` is false for None and for 0. *)
  Definition truthy (x : option T) : option T :=
    match x with Some v => if v =? zero then None else Some v | None => None end.
  (** simulate_distributions.py:9-47 *)
  Definition simulate_magnitudes (u e : nat -> T) (n : nat) (beta mc : T) (mag_max : option T) : list T :=
    match truthy mag_max with
    | Some mm =>
      let lower_cdf := one - nexp (nopp beta * mc) in
      let upper_cdf := one - nexp (nopp beta * mm) in
      map (fun i => let scaled_u := lower_cdf + u i * (upper_cdf - lower_cdf) in
                    nopp (one / beta) * nln (one - scaled_u)) (seq 0 n)
    | None => map (fun i => one / beta * e i + mc) (seq 0 n)
    end.

  (** simulate_distributions.py:50-98 [simulate_magnitudes_binned] for a scalar b *)
  Definition simulate_magnitudes_binned (u e : nat -> T) (n : nat) (b mc : T) (delta : dec) (mag_max : option T)
             (par : bparam) : res (list T) :=
    let? beta := match par with PB => Ok (b * nln (ofZ 10)) | PBeta => Ok b | POther => Err ValueError end in
    let mags := simulate_magnitudes u e n beta (mc - dec_val delta / two) mag_max in
    if dec_val delta >? zero then bin_to_precision (Some mags) delta else Ok mags.

  (** an integer count as numpy returns it *)
  (** simulate_distributions.py:125, 132: the counts of the bins *)
  Definition to_n (x : T) : nat := match nfloorZ x with Some z => Z.to_nat z | None => 0%nat end.

  (** simulate_distributions.py:130-139, the comprehension over zip(bins, counts): the
      [ii]-th call of the generator produces the values for the [ii]-th bin *)
  Fixpoint dither_bins (u e : nat -> nat -> T) (ii : nat) (b d : T) (bc : list (T * T)) : res (list T) :=
    match bc with
    | [] => Ok []
    | (bin, c) :: rest =>
      let? l := simulate_magnitudes_binned (u ii) (e ii) (to_n c) b (bin - d / two) (mkdec 0 0) (Some (bin + d / two)) PB in
      let? r := dither_bins u e (S ii) b d rest in
      Ok (l ++ r)
    end.

  (** simulate_distributions.py:101-141 [dither_magnitudes] *)
  Definition dither_magnitudes (u e : nat -> nat -> T) (mags : list T) (delta : dec) (b : T) : res (list T) :=
    let? ok := binning_test mags delta (lit 1 15) true in
    if negb ok then Err ValueError else
    let? f := get_fmd mags delta None Center in
    let '(bins, counts, temp) := f in
    match mags, temp with
    | m0 :: mt, t0 :: ts =>
      let bin_offset := amin m0 mt - amin t0 ts in
      dither_bins u e 0 b (dec_val delta) (zip (map (fun x => x + bin_offset) bins) counts)
    | _, _ => Err ValueError
    end.

  (** lilliefors.py:5-37 [ks_test_gr_lilliefors]; [table] is statsmodels' test on the shifted
      magnitudes.  min of an empty array raises ValueError. *)
  Definition ks_test_gr_lilliefors (table : list T -> T) (mags : list T) (mc : T) : res T :=
    match mags with
    | [] => Err ValueError
    | m :: t => if fold_left (fun a x => if x <? a then x else a) t m <? mc then Err ValueError
                else Ok (table (map (fun x => x - mc) mags))
    end.

  (** base.py:189-229 [p_lilliefors]; [u k], [e k] are the random numbers of repetition [k] *)
  Definition p_lilliefors (table : list T -> T) (u e : nat -> nat -> nat -> T) (n : nat) (o : @obj T) : res T :=
    let? b := b_value o in
    match o_mc o, o_delta o with
    | Some mc, Some delta =>
      let mc_temp := match o_dmc o with Some d => d | None => mc end in
      if dec_val delta >? zero then
        let? ps := mapM (fun k => let? d := dither_magnitudes (u k) (e k) (mags_of o) delta b in
                                  ks_test_gr_lilliefors table d (mc_temp - dec_val delta / two)) (seq 0 n) in
        Ok (nmean ps)
      else ks_test_gr_lilliefors table (mags_of o) mc_temp
    | _, _ => Err TypeError
    end.
End Simulate.
