(** * Model of seismostats/utils/binning.py *)
From Coq Require Import ZArith List Bool String.
From Verif Require Import Base Num.
Import ListNotations.

Section Binning.
  Context {T : Type} {N : Num T}.
  Local Open Scope num_scope.

  (** binning.py:4  EPSILON = 1e-12 *)
  Definition EPSILON : T := lit 1 12.

  (** binning.py:7-25 [_normal_round_to_int] *)
  Definition normal_round_to_int (x : T) : T := nfloor (x + lit 5 1 + EPSILON).

  (** binning.py:28-49 [normal_round]; [10**n] is a Python int *)
  Definition normal_round (x : T) (n : nat) : T :=
    let power := ofZ (10 ^ Z.of_nat n) in
    normal_round_to_int (x * power) / power.

  (** binning.py:78-85: what happens to one element of the array.  [delta] is the
      decimal literal that [Decimal(str(delta_x))] sees; its exponent's absolute value
      is [decimal_places]. *)
  Definition bin_elem (delta : dec) (x : T) : T :=
    normal_round (normal_round_to_int (x / dec_val delta) * dec_val delta)
                 (Z.to_nat (Z.abs (expo delta))).

  (** binning.py:52-85 [bin_to_precision]; [None] is Python's [None] for x. *)
  Definition bin_to_precision (x : option (list T)) (delta : dec) : res (list T) :=
    match x with
    | None => Err ValueError
    | Some xs =>
      if dec_val delta <? EPSILON then Err ValueError
      else Ok (map (bin_elem delta) xs)
    end.

  (** np.allclose(a, b, atol=tol, rtol=1e-16) on arrays of equal length *)
  Definition allclose (a b : list T) (tol : T) : bool :=
    forallb (fun p => isclose (fst p) (snd p) (lit 1 16) tol) (zip a b).

  (** binning.py:143-152: drop NaN, subtract the minimum.  np.min of an empty array
      raises ValueError. *)
  Definition shift_to_min (x : list T) : res (list T) :=
    match filter (fun v => negb (nisnan v)) x with
    | [] => Err ValueError
    | a :: t => Ok (map (fun v => v - amin a t) (a :: t))
    end.

  (** binning.py:165-180, the branch for [delta_x != 0] (or no larger-binning check).
      [10**power] in line 175 is represented by the decimal literal of its repr. *)
  Definition binning_test_delta (x : list T) (delta : dec) (tol : T) (larger : bool)
    : res bool :=
    let d := dec_val delta in
    if d <? tol then Ok true
    else
      let? xb := bin_to_precision (Some x) delta in
      let test_1 := allclose xb x tol in
      if test_1 && larger then
        match nfloorZ (nlog10 d) with
        | None => Err ValueError
        | Some p =>
          let? xb2 := bin_to_precision (Some x) (dec_pow10 (p + 1)) in
          Ok (test_1 && negb (allclose xb2 x tol))
        end
      else Ok test_1.

  (** binning.py:139-152 + 165-181 for one (recursive) call with [delta_x != 0] *)
  Definition binning_test_nz (x : list T) (delta : dec) (tol : T) (larger : bool) : res bool :=
    match x with
    | [] => Err ValueError
    | _ => let? xs := shift_to_min x in binning_test_delta xs delta tol larger
    end.

  (** binning.py:161-163: the loop over powers of ten *)
  Fixpoint powers_loop (x : list T) (ps : list Z) (tol : T) : res bool :=
    match ps with
    | [] => Ok true
    | p :: ps' =>
      let? b := binning_test_nz x (dec_pow10 p) tol true in
      if b then Ok false else powers_loop x ps' tol
    end.

  (** integers lo, lo+1, ..., hi-1 (np.arange(lo, hi, 1) on integral floats) *)
  Definition zrange (lo hi : Z) : list Z :=
    map (fun i => (lo + Z.of_nat i)%Z) (seq 0 (Z.to_nat (hi - lo))).

  (** binning.py:88-181 [binning_test].  For [delta_x == 0] with the larger-binning
      check the powers run over arange(floor(log10 tol)+1, ceil(log10 range), 1); an
      infinite or NaN bound makes np.arange raise ValueError. *)
  Definition binning_test (x : list T) (delta : dec) (tol : T) (larger : bool) : res bool :=
    match x with
    | [] => Err ValueError
    | _ =>
      let? xs := shift_to_min x in
      if (dec_val delta =? zero) && larger then
        match xs with
        | [] => Err ValueError
        | a :: t =>
          let range := amax a t - amin a t in
          match nfloorZ (nlog10 tol), nceilZ (nlog10 range) with
          | Some p, Some q =>
            powers_loop xs (zrange (p + 1) q) (npow10 (ofZ (p - 1)))
          | _, _ => Err ValueError
          end
        end
      else binning_test_delta xs delta tol larger
    end.

  (** np.arange(start, stop, step) for floats: ceil((stop-start)/step) values
      start + i*((start+step) - start) (numpy fills with start and the difference of the
      first two elements); a non-finite length raises ValueError. *)
  (** binning.py:236-238 (numpy) *)
  Definition np_arange (start stop step : T) : res (list T) :=
    match nceilZ ((stop - start) / step) with
    | None => Err ValueError
    | Some n =>
      let delta := (start + step) - start in
      Ok (map (fun i => start + ofnat i * delta) (seq 0 (Z.to_nat n)))
    end.

  (** np.histogram(xs, edges, weights): bin i is [edges i, edges (i+1)), the last one
      closed.  The code only calls it with increasing edges (fewer than two edges give
      no bins).  One weight per element; None counts every element once. *)
  Definition in_bin (lo hi : T) (last : bool) (x : T) : bool :=
    (lo <=? x) && (if last then x <=? hi else x <? hi).
  (** np.histogram, binning.py:243 (numpy; the last bin is closed on the right) *)
  Fixpoint histogram (xs : list T) (ws : list T) (edges : list T) : list T :=
    match edges with
    | lo :: ((hi :: rest) as tl) =>
      nsum (map snd (filter (fun p => in_bin lo hi (match rest with [] => true | _ => false end) (fst p))
                            (zip xs ws)))
      :: histogram xs ws tl
    | _ => []
    end.

  (** binning.py:243: weights=None *)
  Definition unit_weights (xs : list T) : list T := map (fun _ => one) xs.

  (** binning.py:188, 245-249: the argument [bin_position] *)
  Inductive binpos := Center | LeftEdge | OtherPos.

  (** binning.py:184-251 [get_fmd].  Weights of a different length make np.histogram
      raise ValueError. *)
  Definition get_fmd (mags : list T) (fmd_bin : dec) (weights : option (list T)) (pos : binpos)
    : res (list T * list T * list T) :=
    let d := dec_val fmd_bin in
    if d <=? zero then Err ValueError
    else
      let? binned := bin_to_precision (Some mags) fmd_bin in
      match binned with
      | [] => Err ValueError
      | b0 :: bt =>
        let? ar := np_arange (amin b0 bt) (amax b0 bt + ofZ 3 / two * d) d in
        let? x_bins := bin_to_precision (Some ar) fmd_bin in
        let bins := removelast x_bins in
        let edges := map (fun e => e - d / two) x_bins in
        let? ws := match weights with
                   | None => Ok (unit_weights binned)
                   | Some w => if (List.length w =? List.length binned)%nat then Ok w else Err ValueError
                   end in
        let counts := histogram binned ws edges in
        match pos with
        | Center => Ok (bins, counts, binned)
        | LeftEdge => Ok (map (fun b => b - d / two) bins, counts, binned)
        | OtherPos => Err AssertionError
        end
      end.

  (** np.unique: sorted distinct values (NaN are outside the modelled domain here) *)
  (** binning.py:303 (numpy) *)
  Fixpoint dedup_adj (l : list T) : list T :=
    match l with
    | x :: ((y :: _) as t) => if x =? y then dedup_adj t else x :: dedup_adj t
    | _ => l
    end.
  Definition np_unique (l : list T) : list T := dedup_adj (isort nsort_le l).

  (** np.cumsum(counts[::-1])[::-1] *)
  Fixpoint cumsum_from (acc : T) (l : list T) : list T :=
    match l with [] => [] | x :: t => (acc + x) :: cumsum_from (acc + x) t end.
  (** np.cumsum, binning.py:318 (numpy) *)
  Definition np_cumsum (l : list T) : list T :=
    match l with [] => [] | x :: t => x :: cumsum_from x t end.

  (** binning.py:254-321 [get_cum_fmd].  np.bincount with weights of another length
      raises ValueError; an empty magnitude array gives empty results for fmd_bin=0. *)
  Definition get_cum_fmd (mags : list T) (fmd_bin : dec) (weights : option (list T)) (pos : binpos)
    : res (list T * list T * list T) :=
    let? r :=
      if dec_val fmd_bin =? zero then
        let bins := np_unique mags in
        let? ws := match weights with
                   | None => Ok (unit_weights mags)
                   | Some w => if (List.length w =? List.length mags)%nat then Ok w else Err ValueError
                   end in
        let counts := map (fun b => nsum (map snd (filter (fun p => fst p =? b) (zip mags ws)))) bins in
        Ok (bins, counts, mags)
      else get_fmd mags fmd_bin weights pos in
    let '(bins, counts, binned) := r in
    Ok (bins, rev (np_cumsum (rev counts)), binned).
End Binning.
