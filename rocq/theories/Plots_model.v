(** * Model of seismostats/analysis/magnitudes.py and seismostats/plots

    A plotting function is modelled by the data it hands to matplotlib (points, lines, bands
    and extents).  Colours, labels, legends, tick marks and map tiles are not modelled; nor is
    matplotlib itself, except that it rejects x and y of different lengths (it would accept a
    single dot size for several points; the sizes always come from [dot_size] here). *)
From Coq Require Import ZArith List Bool String Ascii.
From Verif Require Import Base Num StateM Binning_model BValue_model BSig_model.
Import ListNotations.

(** ** [str.lower] for the characters below 128, and substring search *)
Definition lower_char (c : ascii) : ascii :=
  let n := nat_of_ascii c in if ((65 <=? n) && (n <=? 90))%nat then ascii_of_nat (n + 32) else c.
(** str.lower: magnitudes.py:50, 52 *)
Fixpoint lower (s : string) : string :=
  match s with EmptyString => EmptyString | String c t => String (lower_char c) (lower t) end.
(** the operator [in]: magnitudes.py:50, 52 *)
Fixpoint contains_char (c : ascii) (s : string) : bool :=
  match s with EmptyString => false | String x t => Ascii.eqb c x || contains_char c t end.

Section Plots.
  Context {T : Type} {N : Num T}.
  Local Open Scope num_scope.

  (** magnitudes.py:4-53.  [None] is Python's None, returned when neither test succeeds. *)
  Definition apply_edwards (mag_type : string) (mag : T) : option (string * T) :=
    if contains_char "l" (lower mag_type) then
      Some ("Mw_converted"%string, lit 102 2 + lit 472 3 * mag + lit 491 4 * square mag)
    else if contains_char "w" (lower mag_type) then Some (mag_type, mag)
    else None.

  (** Python's builtin min of a sequence *)
  (** seismicity.py:126-133; basics.py:405 (Python) *)
  Definition pymin (l : list T) : res T :=
    match l with [] => Err ValueError | x :: t => Ok (fold_left (fun a b => if b <? a then b else a) t x) end.
  (** the builtins min, max of two numbers: statistical.py:360-390 *)
  Definition min_py (a b : T) : T := if b <? a then b else a.
  (** the builtins min, max of two numbers: statistical.py:360-390 *)
  Definition max_py (a b : T) : T := if b >? a then b else a.

  (** np.power on non-negative arguments *)
  Definition npower (x y : T) : T :=
    if y =? zero then one
    else if x =? zero then (if y <? zero then ninf else zero)
    else nexp (y * nln x).

  (** basics.py:364-406 *)
  Definition dot_size (mags : list T) (smallest largest power : T) : res (list T) :=
    let largest := if largest <=? smallest then ofZ 50 * max_py smallest two else largest in
    match mags with
    | [] => Err ValueError
    | a :: t =>
        let smallest_mag := amin a t in
        let largest_mag := amax a t in
        Ok (map (fun m => npower ((m - smallest_mag) / (largest_mag - smallest_mag)) power * (largest - smallest) + smallest) mags)
    end.

  (** basics.py:409-447 *)
  Definition reverse_dot_size (sizes : list T) (min_mag max_mag power : T) : res (list T) :=
    if power =? zero then Err ValueError
    else
      let? lo := pymin sizes in
      let? hi := pymax sizes in
      Ok (map (fun s => npower ((s - lo) / (hi - lo)) (one / power) * (max_mag - min_mag) + min_mag) sizes).

  (** basics.py:10-28 *)
  Definition gutenberg_richter (mags : list T) (b mc n_mc : T) : list T :=
    map (fun m => n_mc * npow10 (nopp b * (m - mc))) mags.

  (** basics.py:80-81: bins of width 0 stand for fmd_bin not given *)
  Definition zero_dec : dec := mkdec 0 0.
  (** basics.py:83, 175: magnitudes[~np.isnan(magnitudes)] *)
  Definition not_nan (l : list T) : list T := filter (fun v => negb (nisnan v)) l.
  (** basics.py:31-144: the points and the line of the theoretical distribution *)
  Record cum_plot := mkcp { cp_points : list (T * T); cp_line : option (list (T * T)) }.
  Definition plot_cum_fmd (mags : list T) (mc : option T) (fmd_bin : option dec) (weights : option (list T))
             (b : option T) (pos : binpos) : res cum_plot :=
    let fmd_bin := match fmd_bin with None => zero_dec | Some d => d end in
    let? (bins, counts, mags) := get_cum_fmd (not_nan mags) fmd_bin weights pos in
    match b with
    | None => Ok (mkcp (zip bins counts) None)
    | Some b =>
        let? mc := match mc with None => pymin mags | Some c => Ok c end in
        let half_bin := dec_val fmd_bin / two in
        let n_mc := List.length (filter (fun m => m >=? (mc - half_bin)) mags) in
        let mc := match pos with LeftEdge => mc - half_bin | _ => mc end in
        let x := filter (fun v => v >=? (mc - half_bin)) bins in
        let? x0 := pymin x in
        Ok (mkcp (zip bins counts) (Some (zip x (gutenberg_richter x b x0 (ofnat n_mc)))))
    end.

  (** basics.py:147-208 *)
  Definition plot_fmd (mags : list T) (fmd_bin : dec) (weights : option (list T)) (pos : binpos) : res (list (T * T)) :=
    let? (bins, counts, _) := get_fmd (not_nan mags) fmd_bin weights pos in
    Ok (zip bins counts).

  (** basics.py:211-299.  Times are numbers.  [None] for one mc: nothing is drawn.
      [colours]: the length of the colour list, if one is given.  A mask of another length
      than the indexed array is an IndexError. *)
  Definition cum_curve (srt : list T -> list nat) (times mags weights : list T) (delta : T) (normalize : bool)
             (first last mc : T) : res (option (list (T * T))) :=
    let mask := map (fun m => m >=? (mc - delta / two)) mags in
    if negb (List.length mask =? List.length times)%nat || negb (List.length mask =? List.length weights)%nat then Err IndexError
    else
      let ts := compress mask times in
      let ws := compress mask weights in
      let order := srt ts in
      let? ts := gather ts order in
      let? ws := gather ws order in
      let total := nsum ws in
      let cumulative := zero :: np_cumsum ws ++ [total] in
      let timeline := first :: ts ++ [last] in
      if nsum cumulative >? zero then
        Ok (Some (zip timeline (if normalize then map (fun c => c / total) cumulative else cumulative)))
      else Ok None.
  (** basics.py:205-294 *)
  Definition plot_cum_count (srt : list T -> list nat) (times mags : list T) (mcs : option (list T)) (delta : option T)
             (weights : option (list T)) (normalize : bool) (colours : option nat) : res (list (option (list (T * T)))) :=
    let? first := pymin times in
    let? last := pymax times in
    let delta := match delta with None => zero | Some d => d end in
    let? mcs := match mcs with None => rmap (fun m => [m]) (pymin mags) | Some l => Ok l end in
    let weights := match weights with None => repeat one (List.length times) | Some w => w end in
    if match colours with Some n => negb (n =? List.length mcs)%nat | None => false end then Err ValueError
    else mapM (cum_curve srt times mags weights delta normalize first last) mcs.

  (** basics.py:302-361.  The state are the caller's two list objects; [jan1 y] is the first of
      January of the year y (ValueError outside 1..9999).  A list that mixes years and dates is a
      TypeError or reaches matplotlib unchanged; the model covers lists of one kind. *)
  Inductive change_times := Years (l : list Z) | Dates (l : list T).
  (** basics.py:296-371: what the plot shows *)
  Record mags_in_time := mkmt { mt_dots : list (T * T * T); mt_line : option (list (T * T)) }.
  (** basics.py:296-371 *)
  Definition plot_mags_in_time (jan1 : Z -> T) (times mags : list T) (smallest largest power : T)
    : SM (option change_times * option (list T)) mags_in_time := fun st =>
    match dot_size mags smallest largest power with
    | Err e => (st, Err e)
    | Ok sizes =>
      if negb (List.length times =? List.length mags)%nat then (st, Err ValueError)
      else
        let dots := zip (zip times mags) sizes in
        match st with
        | (Some ct, Some mcs) =>
          match times, ct with
          | _, Years [] | _, Dates [] => (st, Err IndexError)
          | [], _ => (st, Err ValueError)
          | t0 :: t, Years ys =>
              if forallb (fun y => ((1 <=? y) && (y <=? 9999))%Z) ys then
                match mcs with
                | [] => (st, Err IndexError)
                | m0 :: _ =>
                    let ct' := map jan1 ys ++ [amax t0 t] in
                    let mcs' := mcs ++ [List.last mcs m0] in
                    ((Some ct, Some mcs'),
                     if (List.length ct' =? List.length mcs')%nat then Ok (mkmt dots (Some (zip ct' mcs'))) else Err ValueError)
                end
              else (st, Err ValueError)
          | t0 :: t, Dates ds =>
              let ct' := ds ++ [amax t0 t] in
              match mcs with
              | [] => ((Some (Dates ct'), Some mcs), Err IndexError)
              | m0 :: _ =>
                  let mcs' := mcs ++ [List.last mcs m0] in
                  ((Some (Dates ct'), Some mcs'),
                   if (List.length ct' =? List.length mcs')%nat then Ok (mkmt dots (Some (zip ct' mcs'))) else Err ValueError)
              end
          end
        | _ => (st, Ok (mkmt dots None))
        end
    end.

  (** ** statistical.py *)
  (** value and uncertainty of an estimator object *)
  Definition std_of (srt : list T -> list nat) (k : kind) (wn : bool) (draws : list (list nat)) (o : @obj T) : res T :=
    match k with BMorePositive => more_positive_std srt wn draws o | _ => est_std o end.
  (** statistical.py:42-50: one object for all completeness magnitudes *)
  Fixpoint mc_vs_b_loop (srt : list T -> list nat) (k : kind) (wn : bool) (draws : nat -> list (list nat)) (mags : list T)
           (delta : dec) (kw : @bkwargs T) (i : nat) (mcs : list T) (o : @obj T) : res (list (T * T)) :=
    match mcs with
    | [] => Ok []
    | mc :: rest =>
        let '(o', r) := calculate srt k wn (with_kw mags mc delta kw) o in
        let? _ := r in
        let? v := b_value o' in
        let? s := std_of srt k wn (draws i) o' in
        let? l := mc_vs_b_loop srt k wn draws mags delta kw (S i) rest o' in
        Ok ((v, s) :: l)
    end.
  (** (x, value, lower bound, upper bound) *)
  Definition band (factor : T) (x : T) (p : T * T) : T * T * T * T :=
    (x, fst p, fst p - factor * snd p, fst p + factor * snd p).
  (** statistical.py:19-81; [ppf] is the normal quantile function *)
  Definition plot_mc_vs_b (srt : list T -> list nat) (ppf : T -> T) (k : kind) (wn : bool) (draws : nat -> list (list nat))
             (mags mcs : list T) (delta : dec) (kw : @bkwargs T) (confidence : T) : res (list (T * T * T * T)) :=
    let? vs := mc_vs_b_loop srt k wn draws mags delta kw 0 mcs new_obj in
    Ok (map2 (band (ppf ((one + confidence) / two))) mcs vs).

  (** statistical.py:93, 180-181: the argument [plot_technique] *)
  Inductive technique := TLeft | TMidpoint | TRight | TOther.
  (** statistical.py:196-215: the running windows, one object for all of them *)
  Fixpoint series_loop (srt : list T -> list nat) (k : kind) (wn : bool) (draws : nat -> list (list nat)) (delta : dec) (kw : @bkwargs T)
           (n_m min_num : nat) (mags times mcs : list T) (iis : list nat) (o : @obj T) : res (list (T * T)) :=
    match iis with
    | [] => Ok []
    | ii :: rest =>
        let mw := slice ii (ii + n_m) mags in
        let tw := slice ii (ii + n_m) times in
        let cw := slice ii (ii + n_m) mcs in
        let idx := srt tw in
        let? mw := gather mw idx in
        let? cw := gather cw idx in
        let? mc := pymax cw in
        let '(o', r) := calculate srt k wn (with_kw mw mc delta kw) o in
        let? _ := r in
        let? n := est_n o' in
        let? vs := if (n <? min_num)%nat then Ok (nnan, nnan)
                   else let? v := b_value o' in let? s := std_of srt k wn (draws ii) o' in Ok (v, s) in
        let? l := series_loop srt k wn draws delta kw n_m min_num mags times mcs rest o' in
        Ok (vs :: l)
    end.
  (** values put into an array of NaN from position [start] on *)
  (** statistical.py:192-193, 209-213: arrays filled with NaN, then assigned *)
  Definition place (n start : nat) (vs : list (T * T)) : list (T * T) :=
    map (fun i => if (i <? start)%nat then (nnan, nnan) else nth (i - start) vs (nnan, nnan)) (seq 0 n).
  (** statistical.py:84-232.  Negative numbers are not modelled for n_m and min_num; n_m = 0 makes
      max() raise ValueError at the first window. *)
  Definition plot_b_series (srt : list T -> list nat) (ppf : T -> T) (k : kind) (wn : bool) (draws : nat -> list (list nat))
             (mags : list T) (delta : dec) (mc : scalar_or_array T) (times : list T) (n_m min_num : nat)
             (x : option (list T)) (tech : technique) (kw : @bkwargs T) (confidence : T) : res (list (T * T * T * T)) :=
    let mcs := match mc with Scalar c => repeat (one * c) (List.length mags) | Array l => l end in
    if (n_m <? min_num)%nat then Err ValueError
    else if negb (List.length mags =? List.length times)%nat then Err IndexError
    else
      let? (mags, times, mcs, xs) :=
        match x with
        | None => Ok (mags, times, mcs, map ofnat (seq 0 (List.length mags)))
        | Some xs =>
            if negb (List.length xs =? List.length mags)%nat then Err IndexError
            else
              let? m' := gather mags (srt xs) in
              let? t' := gather times (srt xs) in
              let? c' := gather mcs (srt xs) in
              let? x' := gather xs (srt xs) in
              Ok (m', t', c', x')
        end in
      let? start := match tech with
                    | TLeft => Ok 0%nat
                    | TMidpoint => Ok (n_m / 2)%nat
                    | TRight => Ok (n_m - 1)%nat
                    | TOther => Err ValueError
                    end in
      if negb (List.length mcs =? List.length mags)%nat then
        Err (if (List.length mcs =? 1)%nat || (List.length mags =? 1)%nat then IndexError else ValueError)
      else
        let idx := map2 (fun m c => m >=? (c - dec_val delta / two)) mags mcs in
        let mags := compress idx mags in
        let times := compress idx times in
        let mcs := compress idx mcs in
        let xs := compress idx xs in
        let n := List.length mags in
        let? vs := series_loop srt k wn draws delta kw n_m min_num mags times mcs (seq 0 (n + 1 - n_m)) new_obj in
        Ok (map2 (band (ppf ((one + confidence) / two))) xs (place n start vs)).

  (** statistical.py:320-353: the plotted significance test, for the given numbers of magnitudes
      [n_ms].  The completeness magnitudes are not sorted with the events. *)
  Definition plot_b_significant_1D (srt : list T -> list nat) (norm_cdf : T -> T -> T -> T) (m : meth) (wn : bool) (kw : kwargs T)
             (draws : nat -> nat -> nat -> list (list nat)) (mags : list T) (mc : scalar_or_array T) (delta : dec) (times : list T)
             (n_ms : list nat) (min_num : nat) (x : option (list T)) (conservative : bool) : res (list (T * T * T * T)) :=
    let mcs := match mc with Scalar c => repeat (one * c) (List.length mags) | Array l => l end in
    let? (mags, times) :=
      match x with
      | None => Ok (mags, times)
      | Some xs => if negb (List.length xs =? List.length mags)%nat then Err ValueError
                   else let? m' := gather mags (srt xs) in let? t' := gather times (srt xs) in Ok (m', t')
      end in
    if negb (List.length mcs =? List.length mags)%nat then
      Err (if (List.length mcs =? 1)%nat || (List.length mags =? 1)%nat then IndexError else ValueError)
    else
      let idx := map2 (fun m c => m >=? (c - dec_val delta / two)) mags mcs in
      if negb (List.length idx =? List.length times)%nat then Err IndexError
      else
        let mags := compress idx mags in
        let times := compress idx times in
        let mcs := compress idx mcs in
        mapM (fun n_m =>
          if (n_m =? 0)%nat then Err ZeroDivisionError
          else if (ofnat (List.length mags) / ofnat n_m) <? ofZ 15 then Ok (nnan, nnan, nnan, nnan)
          else b_significant_1D srt norm_cdf m wn kw (draws n_m) mags (Array mcs) delta times n_m min_num None conservative) n_ms.

  (** np.linspace(start, stop, num) for num >= 2 (numpy; statistical.py:316-317) *)
  Definition linspace (start stop : T) (num : nat) : list T :=
    let div := ofnat (num - 1) in
    let delta := stop - start in
    let step := delta / div in
    map (fun k => (if step =? zero then ofnat k / div * delta else ofnat k * step) + start) (seq 0 (num - 1)) ++ [stop].
  (** astype(int): rounding towards zero (statistical.py:317); the numbers here are not negative and below 2^63 *)
  Definition truncate (x : T) : nat :=
    match nfloorZ x with Some z => Z.to_nat z | None => 0%nat end.
  (** np.unique of natural numbers (statistical.py:316) *)
  Fixpoint unique_adj (l : list nat) : list nat :=
    match l with
    | a :: ((b :: _) as t) => if (a =? b)%nat then unique_adj t else a :: unique_adj t
    | _ => l
    end.
  Definition unique_nat (l : list nat) : list nat := unique_adj (isort Nat.leb l).
  (** statistical.py:315-320: the numbers of magnitudes used if the caller gives none;
      [n] is the number of complete magnitudes *)
  Definition default_n_ms (n min_num : nat) : res (list nat) :=
    if (ofnat n / ofZ 15) >? ofnat min_num
    then Ok (unique_nat (map truncate (linspace (ofZ 15) (ofnat n / ofZ 15) 10)))
    else Err ValueError.

  (** the argument n_ms: None, a list or an array (statistical.py:240, 266) *)
  Inductive sample_sizes := SDefault | SList (l : list nat) | SArray (l : list nat).

  (** statistical.py:284-353: the points (n_m, mac), the lower and upper edge of the band and its
      middle at each n_m, and the red markers.  [ppf] is scipy's normal quantile.  The selection of
      the complete events (288-313) is written again here, only to count them.  A size of 0 in an
      array is treated as in a list (ZeroDivisionError; numpy would divide to inf). *)
  Definition significance_plot (srt : list T -> list nat) (norm_cdf : T -> T -> T -> T) (ppf : T -> T) (m : meth) (wn : bool) (kw : kwargs T)
             (draws : nat -> nat -> nat -> list (list nat)) (mags : list T) (mc : scalar_or_array T) (delta : dec) (times : list T)
             (n_ms : sample_sizes) (min_num : nat) (x : option (list T)) (conservative : bool) (p_threshold : T)
    : res (list (nat * T) * list (nat * T * T * T) * list (nat * T)) :=
    let mcs := match mc with Scalar c => repeat (one * c) (List.length mags) | Array l => l end in
    let? (mags', times') :=
      match x with
      | None => Ok (mags, times)
      | Some xs => if negb (List.length xs =? List.length mags)%nat then Err ValueError
                   else let? m' := gather mags (srt xs) in let? t' := gather times (srt xs) in Ok (m', t')
      end in
    if negb (List.length mcs =? List.length mags')%nat then
      Err (if (List.length mcs =? 1)%nat || (List.length mags' =? 1)%nat then IndexError else ValueError)
    else if negb (List.length mags' =? List.length times')%nat then Err IndexError
    else
      let n := List.length (compress (map2 (fun m c => m >=? (c - dec_val delta / two)) mags' mcs) mags') in
      let? sizes := match n_ms with SDefault => default_n_ms n min_num | SList l | SArray l => Ok l end in
      let? results := plot_b_significant_1D srt norm_cdf m wn kw draws mags mc delta times sizes min_num x conservative in
      let std_factor := ppf (one - p_threshold / two) in
      let rows := zip sizes results in
      let points := map (fun r : nat * (T * T * T * T) => let '(n_m, (_, mac, _, _)) := r in (n_m, mac)) rows in
      let band := map (fun r : nat * (T * T * T * T) => let '(n_m, (_, _, mu, std)) := r in (n_m, mu - std_factor * std, mu, mu + std_factor * std)) rows in
      let below := fun r : nat * (T * T * T * T) => let '(_, (p, _, _, _)) := r in p <? p_threshold in
      if existsb below rows then
        match n_ms with
        | SList _ => Err TypeError      (* a list indexed with an array of booleans *)
        | _ => Ok (points, band, map (fun r : nat * (T * T * T * T) => let '(n_m, (_, mac, _, _)) := r in (n_m, mac)) (filter below rows))
        end
      else Ok (points, band, []).

  (** statistical.py:356-390, on the three channels (the conversion to and from hexadecimal
      notation is matplotlib's) *)
  Definition adjust_channel (factor c : T) : T :=
    if factor <? one then c + (one - c) * (one - factor) else c / factor.

  (** ** seismicity.py *)
  (** 208-226 *)
  Definition rect_from_bound (xmin xmax ymin ymax : T) : list (T * T) :=
    zip [xmax; xmin; xmin; xmax] [ymax; ymax; ymin; ymin].
  (** 128-137 and 111-119: the box (west, east, south, north) around the data or around the
      bounds (west, south, east, north) of a country *)
  Definition data_extent (lons lats : list T) : res (T * T * T * T) :=
    let? north := pymax lats in
    let? south := pymin lats in
    let? east := pymax lons in
    let? west := pymin lons in
    let pad_lat := nabs (north - south) * lit 5 2 in
    let pad_lon := nabs (east - west) * lit 5 2 in
    Ok (west - pad_lon, east + pad_lon, south - pad_lat, north + pad_lat).
  (** seismicity.py:108-116 *)
  Definition country_extent (b : T * T * T * T) : T * T * T * T :=
    let '(b0, b1, b2, b3) := b in
    let pad_lat := nabs (b0 - b2) * lit 5 2 in
    let pad_lon := nabs (b1 - b3) * lit 5 2 in
    (b0 - pad_lat, b2 + pad_lat, b1 - pad_lon, b3 + pad_lon).
  (** 139-150: the extent that is set; [current] is that of the caller's axes *)
  Definition set_extent (current : option (T * T * T * T)) (exts : T * T * T * T) : T * T * T * T :=
    match current with
    | None => exts
    | Some (c0, c1, c2, c3) =>
        let '(e0, e1, e2, e3) := exts in (min_py c0 e0, max_py c1 e1, min_py c2 e2, max_py c3 e3)
    end.
  (** 59-205: extent and dots, without a country *)
  Definition plot_in_space (current : option (T * T * T * T)) (lons lats mags : list T) (smallest largest power : T)
    : res ((T * T * T * T) * list (T * T * T)) :=
    let? exts := data_extent lons lats in
    let? sizes := dot_size mags smallest largest power in
    if negb (List.length lons =? List.length lats)%nat || negb (List.length sizes =? List.length lons)%nat then Err ValueError
    else Ok (set_extent current exts, zip (zip lons lats) sizes).
End Plots.
Arguments change_times : clear implicits.
