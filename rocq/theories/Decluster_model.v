(** * Model of seismostats/analysis/declustering/

    utils.py (haversine), distance_time_windows.py (window classes),
    dec_gardner_knopoff.py (GardnerKnopoffType1._decluster). *)
From Coq Require Import ZArith List Bool.
From Verif Require Import Base Num.
Import ListNotations.

Section Decluster.
  Context {T : Type} {N : Num T}.
  Local Open Scope num_scope.

  (** utils.py:41-60 [haversine], one location, default radius *)
  Definition earth_rad : T := lit 6371227 3.
  (** declustering/utils.py:4-60 *)
  Definition haversine (lon lat tlon tlat : T) : T :=
    let cfact := npi / ofZ 180 in
    let lon := cfact * lon in
    let lat := cfact * lat in
    let tlon := cfact * tlon in
    let tlat := cfact * tlat in
    let dlat := lat - tlat in
    let dlon := lon - tlon in
    let aval := square (nsin (dlat / two)) + ncos lat * ncos tlat * square (nsin (dlon / two)) in
    two * earth_rad * natan2 (nsqrt aval) (nsqrt (one - aval)).

  (** distance_time_windows.py:60-125: the three window classes; km and days *)
  Inductive window_kind := GardnerKnopoff | Gruenthal | Uhrhammer.
  (** distance_time_windows.py:73-79, 102-108, 120-123 *)
  Definition space_window (k : window_kind) (m : T) : T :=
    match k with
    | GardnerKnopoff => npow10 (lit 1238 4 * m + lit 983 3)
    | Gruenthal => nexp (lit 177 2 + nsqrt (lit 37 3 + lit 102 2 * m))
    | Uhrhammer => nexp (lit (-1024) 3 + lit 804 3 * m)
    end.
  (** distance_time_windows.py:73-79, 102-108, 120-123 *)
  Definition time_window (k : window_kind) (m : T) : T :=
    match k with
    | GardnerKnopoff => if m <? lit 65 1 then npow10 (lit 5409 4 * m - lit 547 3) else npow10 (lit 32 3 * m + lit 27389 4)
    | Gruenthal => if m >=? lit 65 1 then npow10 (lit 28 1 + lit 24 3 * m)
                   else nabs (nexp (lit (-395) 2 + nsqrt (lit 62 2 + lit 1732 2 * m)))
    | Uhrhammer => nexp (lit (-287) 2 + lit 1235 3 * m)
    end.
  (** 43-59 [__call__]: `if self.time_cutoff` is false for None and 0; np.clip; the time
      windows are converted to seconds (the rounding of pd.Timedelta to nanoseconds is not
      modelled) *)
  Definition clip (x lo hi : T) : T := nmin2 (nmax2 x lo) hi.
  (** distance_time_windows.py:57-58 *)
  Definition cut_time (cutoff : option T) (t : T) : T :=
    match cutoff with
    | None => t
    | Some c => if c =? zero then t else clip t zero c
    end.
  (** distance_time_windows.py:45-60 *)
  Definition windows (k : window_kind) (cutoff : option T) (mags : list T) : list T * list T :=
    (map (space_window k) mags, map (fun m => cut_time cutoff (time_window k m) * ofZ 86400) mags).

  (** distance_time_windows.py:59: pd.Timedelta(days=t) for every time window; pandas takes the
      integer part of the nanoseconds, and there is none of NaN (windows of 292 years and more,
      which do not fit into a Timedelta, are not modelled) *)
  Definition durations (tws : list T) : res (list T) := if existsb nisnan tws then Err ValueError else Ok tws.

  (** a row of the catalogue with its index label; times in seconds *)
  (** dec_gardner_knopoff.py:71-77 *)
  Record event := mkev { e_label : Z; e_time : T; e_mag : T; e_lon : T; e_lat : T }.

  (** numpy indexing of an array of length [n] with the integer [z] *)
  (** dec_gardner_knopoff.py:87, 91, 115 (numpy) *)
  Definition np_pos (n : nat) (z : Z) : res nat :=
    if ((0 <=? z) && (z <? Z.of_nat n))%Z then Ok (Z.to_nat z)
    else if ((- Z.of_nat n <=? z) && (z <? 0))%Z then Ok (Z.to_nat (Z.of_nat n + z))
    else Err IndexError.

  (** dec_gardner_knopoff.py:79-81: sort_values by decreasing magnitude, increasing time,
      stable; NaN last *)
  Definition larger (x y : T) : bool := if nisnan x then false else if nisnan y then true else y <? x.
  (** dec_gardner_knopoff.py:79-81: decreasing magnitude, then increasing time *)
  Definition row_le (a b : nat * event) : bool :=
    larger (e_mag (snd a)) (e_mag (snd b))
    || (negb (larger (e_mag (snd b)) (e_mag (snd a))) && nsort_le (e_time (snd a)) (e_time (snd b))).
  (** dec_gardner_knopoff.py:79-81; the merge sort is stable *)
  Definition ordered (evs : list event) : list (nat * event) := isort row_le (combine (seq 0 (length evs)) evs).

  (** dec_gardner_knopoff.py:112-115: assignment to an array element *)
  Definition set_nth {A} (i : nat) (v : A) (l : list A) : list A := map (fun p => if (fst p =? i)%nat then v else snd p) (combine (seq 0 (length l)) l).
  (** Series lookup by label (labels are taken to be distinct) *)
  (** dec_gardner_knopoff.py:95-96, 108 (pandas) *)
  Definition by_label (labels : list Z) (vs : list T) (z : Z) : res T :=
    match find (fun p => (fst p =? z)%Z) (combine labels vs) with Some p => Ok (snd p) | None => Err KeyError end.

  (** 83-115: one pass of the loop.  [sel j] says whether the j-th event is inside the windows
      of the event at label [z]: numpy arrays (times, time windows, cluster ids, flags) are
      indexed by position, the Series of the space windows by label.  74: times are cast to
      whole seconds *)
  Definition dec_step (dist : T -> T -> T -> T -> T) (fs : T) (evs : list event) (sws tws : list T)
             (st : list nat * nat * list bool) (row : event) : res (list nat * nat * list bool) :=
    let '(cids, cid, flags) := st in
    let? i := np_pos (length evs) (e_label row) in
    if negb (nth i cids 0%nat =? 0)%nat then Ok st
    else
      let ti := nfloor (e_time (nth i evs row)) in
      let tw := nth i tws nnan in
      let? sw := by_label (map e_label evs) sws (e_label row) in
      let sel := fun (c : nat) (e : event) =>
        let dt := nfloor (e_time e) - ti in
        (c =? 0)%nat && ((dt >=? nopp tw * fs) && (dt <=? tw)) && (dist (e_lon e) (e_lat e) (e_lon row) (e_lat row) <=? sw) in
      let vsel := map2 sel cids evs in
      Ok (map2 (fun (b : bool) c => if b then cid else c) vsel cids, S cid,
          set_nth i true (map2 (fun (b : bool) f => if b then false else f) vsel flags)).
  Fixpoint dec_loop dist fs evs sws tws (rows : list event) st : res (list nat * nat * list bool) :=
    match rows with
    | [] => Ok st
    | r :: rows => let? st' := dec_step dist fs evs sws tws st r in dec_loop dist fs evs sws tws rows st'
    end.
  (** 42-118; the result is (mainshock_flags, cluster_ids) *)
  Definition decluster (dist : T -> T -> T -> T -> T) (window : list T -> list T * list T) (fs : T) (evs : list event) : res (list bool * list nat) :=
    let '(sws, tws) := window (map e_mag evs) in
    let? tws := durations tws in
    let n := length evs in
    let? (cids, _, flags) := dec_loop dist fs evs sws tws (map snd (ordered evs)) (repeat 0%nat n, 1%nat, repeat true n) in
    Ok (flags, cids).
End Decluster.
Arguments event : clear implicits.
