(** * Model of seismostats/analysis/b_significant.py *)
From Coq Require Import ZArith List Bool String.
From Verif Require Import Base Num StateM Binning_model BValue_model AValue_model.
Import ListNotations.

(** ** cutting (b_significant.py:266-296) *)
(** [np.arange(start, stop, step)] for natural numbers, step >= 1: ceil((stop-start)/step) entries *)
Definition arange_nat (start stop step : nat) : list nat :=
  map (fun k => start + k * step)%nat (seq 0 ((stop - start + step - 1) / step)).
(** [np.array_split(values, idx)]: the slices between consecutive division points *)
(** b_significant.py:295, 416-417 (numpy) *)
Fixpoint array_split_from {A} (st : nat) (idx : list nat) (values : list A) : list (list A) :=
  match idx with
  | [] => [slice st (length values) values]
  | e :: t => slice st e values :: array_split_from e t values
  end.
Definition array_split {A} (values : list A) (idx : list nat) : list (list A) := array_split_from 0 idx values.

(** b_significant.py:266-296 *)
Definition cut_constant_idx {A} (values : list A) (n offset : nat) : res (list nat * list (list A)) :=
  if (n <=? offset)%nat then Err ValueError
  else
    let idx := arange_nat offset (length values) n in
    let idx := if (offset =? 0)%nat then tl idx else idx in
    Ok (idx, array_split values idx).

(** a 2d array: numbers of rows and columns, entries *)
Record mat (T : Type) := mkmat { rows : nat; cols : nat; entry : nat -> nat -> T }.
Arguments mkmat {T}. Arguments rows {T}. Arguments cols {T}. Arguments entry {T}.
(** helper of the model: the entries of a matrix in row order (np.sum, b_significant.py:80, 86, 105) *)
Definition entries {T} (w : mat T) : list T :=
  flat_map (fun i => map (entry w i) (seq 0 (cols w))) (seq 0 (rows w)).

Section BSig.
  Context {T : Type} {N : Num T}.
  Local Open Scope num_scope.

  (** np.eye(n, k=1), b_significant.py:70 *)
  Definition eye1 (n : nat) : mat T := mkmat n n (fun i j => if (j =? i + 1)%nat then one else zero).
  (** w.diagonal(), b_significant.py:75 *)
  Definition diagonal (w : mat T) : list T := map (fun i => entry w i i) (seq 0 (Nat.min (rows w) (cols w))).
  (** np.fill_diagonal(w, 0), b_significant.py:76 *)
  Definition fill_diagonal0 (w : mat T) : mat T := mkmat (rows w) (cols w) (fun i j => if (i =? j)%nat then zero else entry w i j).
  (** np.tril(w), b_significant.py:80 *)
  Definition tril (w : mat T) : mat T := mkmat (rows w) (cols w) (fun i j => if (j <=? i)%nat then entry w i j else zero).
  (** np.triu(w), b_significant.py:80, 82, 86 *)
  Definition triu (w : mat T) : mat T := mkmat (rows w) (cols w) (fun i j => if (i <=? j)%nat then entry w i j else zero).
  (** w.T, b_significant.py:81, 87 *)
  Definition transpose (w : mat T) : mat T := mkmat (cols w) (rows w) (fun i j => entry w j i).
  (** np.sum of a matrix, b_significant.py:80, 86, 105 *)
  Definition msum (w : mat T) : T := nsum (entries w).
  (** x == 0, b_significant.py:75, 80, 86 *)
  Definition is_zero (x : T) : bool := x =? zero.
  (** [np.all(w == w.T)] of a square matrix *)
  Definition symmetric (w : mat T) : bool :=
    forallb (fun i => forallb (fun j => entry w i j =? entry w j i) (seq 0 (cols w))) (seq 0 (rows w)).
  (** [np.all(np.isin(w, [0, 1]))] *)
  Definition zero_one (w : mat T) : bool := forallb (fun x => (x =? zero) || (x =? one)) (entries w).

  (** b_significant.py:66-87: the neighbour matrix after all checks *)
  Definition prepare_w (w : mat T) : res (mat T) :=
    if negb (rows w =? cols w)%nat then Err ValueError
    else
      let w := if is_zero (nsum (diagonal w)) then w else fill_diagonal0 w in
      let? w := if negb (is_zero (msum (tril w))) && negb (is_zero (msum (triu w))) then
                  if symmetric w then Ok (triu w) else Err ValueError
                else if is_zero (msum (triu w)) then Ok (transpose w) else Ok w in
      if zero_one w then Ok w else Err ValueError.

  (** deviations @ deviations, b_significant.py:103 *)
  Definition dot (x y : list T) : T := nsum (map2 nmul x y).
  (** [deviations @ w @ deviations] *)
  (** b_significant.py:102 *)
  Definition quad (d : list T) (w : mat T) : T :=
    dot (map (fun j => dot d (map (fun i => entry w i j) (seq 0 (rows w)))) (seq 0 (cols w))) d.
  (** [w[~valid, :] = 0; w[:, ~valid] = 0]; a mask of another length is an IndexError *)
  Definition mask_w (valid : list bool) (w : mat T) : res (mat T) :=
    if (length valid =? rows w)%nat && (length valid =? cols w)%nat then
      Ok (mkmat (rows w) (cols w) (fun i j => if nth i valid false && nth j valid false then entry w i j else zero))
    else Err IndexError.

  (** b_significant.py:17-108 *)
  Definition est_morans_i (values : list T) (w : option (mat T)) (mean_v : option T) : res (T * nat * T) :=
    if (length values <? 2)%nat then Err ValueError
    else
      let? w := match w with None => Ok (eye1 (length values)) | Some w => prepare_w w end in
      let valid := map (fun v => negb (nisnan v)) values in
      let mean_v := match mean_v with None => nmean (compress valid values) | Some m => m end in
      let? w := mask_w valid w in
      let deviations := map2 (fun (b : bool) v => if b then v - mean_v else zero) valid values in
      let ac := quad deviations w in
      let ac_0 := dot deviations deviations in
      let n_p := msum w in
      let n := count (fun b : bool => b) valid in
      Ok (ofZ (Z.of_nat n - 1) / n_p * ac / ac_0, n, n_p).

  (** b_significant.py:111-145, arrays of the same length (a scalar is a one-element array) *)
  Definition transform_one (b_true b n1 n2 : T) : T :=
    b_true / (one - nsqrt (n1 / n2) * (one - b_true / b)).
  (** helper of the model: elementwise numpy arithmetic on three arrays (b_significant.py:111-145) *)
  Fixpoint map3 {A B C D} (f : A -> B -> C -> D) (xs : list A) (ys : list B) (zs : list C) : list D :=
    match xs, ys, zs with x :: xs, y :: ys, z :: zs => f x y z :: map3 f xs ys zs | _, _, _ => [] end.
  Definition transform_n (bs : list T) (b_true : T) (n1 n2 : list T) : res (list T) :=
    if existsb (fun b : bool => b) (map2 (fun x y => x >? y) n1 n2) then Err ValueError
    else Ok (map3 (transform_one b_true) bs n1 n2).

  (** ** values_from_partitioning (b_significant.py:148-263) *)
  (** the estimator class passed as [method], and the additional keyword arguments (dmc for
      the positive estimators, weights for all b-value estimators; m_ref, b_value for the a-value
      estimators).  They are passed on as they are, for every sub-sample.  Arguments that
      the class does not have (TypeError) and times among them are not modelled. *)
  (** b_significant.py:153, 304: the argument [method] *)
  Inductive meth := MB (k : kind) | MA (k : akind).
  (** b_significant.py:157, 310: **kwargs *)
  Record kwargs := mkkw { kw_dmc : option T; kw_mref : option T; kw_b : option T; kw_weights : option (list T) }.
  (** the estimator object *)
  (** b_significant.py:245: estimator = method() *)
  Inductive estimator := EB (o : @obj T) | EA (o : @aobj T).
  (** b_significant.py:245: method() *)
  Definition new_estimator (m : meth) : estimator := match m with MB _ => EB new_obj | MA _ => EA new_aobj end.

  (** 245-261: one call of estimator.calculate followed by reading value, std and n.
      [draws] are the bootstrap resamples of the b-more-positive uncertainty; the std of
      an a-value estimator is None, stored as NaN. *)
  Definition evaluate (srt : list T -> list nat) (m : meth) (wn : bool) (kw : kwargs) (delta : dec) (draws : list (list nat))
             (mags times : list T) (mc scaling : T) (e : estimator) : estimator * res (T * T * nat) :=
    match m, e with
    | MB k, EB o =>
      let '(o', r) := calculate srt k wn (mkargs mags mc delta (kw_weights kw) None (kw_dmc kw)) o in
      (EB o', let? _ := r in
              let? v := b_value o' in
              let? s := match k with BMorePositive => more_positive_std srt wn draws o' | _ => est_std o' end in
              let? n := est_n o' in Ok (v, s, n))
    | MA k, EA o =>
      let '((o', _), r) := a_calculate srt k wn (mkaargs mags mc delta (Some scaling) (kw_mref kw) (kw_b kw) times (kw_dmc kw)) (o, []) in
      (EA o', let? _ := r in
              let? v := a_value o' in
              let? n := a_n o' in Ok (v, nnan, n))
    | _, _ => (e, Err TypeError)
    end.

  (** 227-261: one pass of the loop *)
  Definition evaluate_part (srt : list T -> list nat) (m : meth) (wn : bool) (kw : kwargs) (delta : dec) (draws : list (list nat))
             (mags times : list T) (mc scaling : T) (e : estimator) : estimator * res (T * T * nat) :=
    match mags with
    | [] => (e, Ok (nnan, nnan, 0%nat))
    | _ =>
      let idx_sorted := srt times in
      match gather mags idx_sorted, gather times idx_sorted with
      | Ok mags', Ok times' => evaluate srt m wn kw delta draws mags' times' mc scaling e
      | Err x, _ | _, Err x => (e, Err x)
      end
    end.
  (** b_significant.py:247-261: the loop over the sub-samples, with one estimator object for all *)
  Fixpoint evaluate_all (srt : list T -> list nat) (m : meth) (wn : bool) (kw : kwargs) (delta : dec) (draws : nat -> list (list nat))
           (ii : nat) (lm lt : list (list T)) (lmc lsc : list T) (e : estimator) : res (list (T * T * nat)) :=
    match lm, lt, lmc, lsc with
    | mags :: lm, times :: lt, mc :: lmc, sc :: lsc =>
      let '(e', r) := evaluate_part srt m wn kw delta (draws ii) mags times mc sc e in
      let? x := r in
      let? xs := evaluate_all srt m wn kw delta draws (S ii) lm lt lmc lsc e' in
      Ok (x :: xs)
    | [], _, _, _ => Ok []
    | _, _, _, _ => Err IndexError
    end.

  (** a scalar or an array *)
  (** b_significant.py:154, 302: the type of [mc] *)
  Inductive scalar_or_array := Scalar (x : T) | Array (xs : list T).

  Definition values_from_partitioning (srt : list T -> list nat) (m : meth) (wn : bool) (kw : kwargs) (draws : nat -> list (list nat))
             (lm lt : list (list T)) (mc : scalar_or_array) (delta : dec) (scaling : option (list T)) : res (list (T * T * nat)) :=
    let n := length lm in
    if negb (n =? length lt)%nat then Err IndexError
    else
      let? lmc := match mc with
                  | Scalar x => Ok (repeat x n)
                  | Array xs => if (n =? length xs)%nat then Ok xs else Err IndexError
                  end in
      let lsc := match m, scaling with MA _, Some s => s | _, _ => repeat one n end in
      evaluate_all srt m wn kw delta draws 0 lm lt lmc lsc (new_estimator m).

  (** ** b_significant_1D (b_significant.py:299-459) *)
  (** python's builtin max of a non-empty sequence *)
  (** b_significant.py:418: max(mc_loop) *)
  Definition pymax (l : list T) : res T :=
    match l with [] => Err ValueError | x :: t => Ok (fold_left (fun a b => if b >? a then b else a) t x) end.
  (** list.pop(-1), list.pop(0): b_significant.py:423-429 *)
  Definition pop_last {A} (l : list A) : list A := removelast l.
  Definition pop_first {A} (l : list A) : list A := tl l.
  (** 413-433: the sub-samples of the iteration with offset ii *)
  Definition partition1 (mags times mc : list T) (n_m ii : nat) : res (list (list T) * list (list T) * list T) :=
    let? (idx, lm) := cut_constant_idx mags n_m ii in
    let lt := array_split times idx in
    let? lmc := mapM pymax (array_split mc idx) in
    let cut_last := match lm with [] => false | _ => (length (last lm []) <? n_m)%nat end in
    let '(lm, lt, lmc) := if cut_last then (pop_last lm, pop_last lt, pop_last lmc) else (lm, lt, lmc) in
    match lm with
    | [] => Err IndexError
    | f :: _ => Ok (if (length f <? n_m)%nat then (pop_first lm, pop_first lt, pop_first lmc) else (lm, lt, lmc))
    end.

  (** np.nanmean: NaN if every entry is NaN *)
  Definition nanmean (l : list T) : T := nmean (filter (fun x => negb (nisnan x)) l).

  (** 435-446: Moran's I of one iteration (autocorrelation, n, n_p) *)
  Definition ac_one (srt : list T -> list nat) (m : meth) (wn : bool) (kw : kwargs) (draws : nat -> list (list nat))
             (delta : dec) (min_num : nat) (p : list (list T) * list (list T) * list T) : res (T * T * T) :=
    let '(lm, lt, lmc) := p in
    let? r := values_from_partitioning srt m wn kw draws lm lt (Array lmc) delta None in
    let vec := map (fun x => if (snd x <? min_num)%nat then nnan else fst (fst x)) r in
    if (count (fun x : T * T * nat => (min_num <=? snd x)%nat) r <? 3)%nat then Ok (nnan, nnan, nnan)
    else let? (ac, n, n_p) := est_morans_i vec None None in Ok (ac, ofnat n, n_p).

  (** 448-459; [norm_cdf loc scale x] is scipy's normal distribution function *)
  Definition summary (norm_cdf : T -> T -> T -> T) (conservative : bool) (acs : list (T * T * T)) : T * T * T * T :=
    let mean_np := nanmean (map (fun x => snd x) acs) in
    let '(mac, mu_mac, std_mac) :=
      if mean_np >? two then
        (nanmean (map (fun x => fst (fst x)) acs), ofZ (-1) / nanmean (map (fun x => snd (fst x)) acs),
         (mean_np - two) / (mean_np * nsqrt mean_np))
      else (nnan, nnan, nnan) in
    let std_mac := if conservative then std_mac else std_mac * lit 81 2 in
    (one - norm_cdf mu_mac std_mac mac, mac, mu_mac, std_mac).

  (** 363-402: sorting along x_variable and filtering with the completeness magnitudes.
      [mc] is not sorted with the events. *)
  Definition prepare_1D (srt : list T -> list nat) (mags : list T) (mc : scalar_or_array) (delta : dec) (times : list T)
             (n_m min_num : nat) (x : option (list T)) : res (list T * list T * list T) :=
    if negb (length mags =? length times)%nat then Err IndexError
    else
      let mcs := match mc with Scalar c => repeat c (length mags) | Array l => l end in
      if (n_m <? min_num)%nat then Err ValueError
      else
        let? (mags, times) :=
          match x with
          | None => Ok (mags, times)
          | Some xs => if negb (length xs =? length mags)%nat then Err ValueError
                       else let? m' := gather mags (srt xs) in let? t' := gather times (srt xs) in Ok (m', t')
          end in
        if negb (length mcs =? length mags)%nat then
          Err (if (length mcs =? 1)%nat || (length mags =? 1)%nat then IndexError else ValueError)
        else
          let idx := map2 (fun m c => m >=? (c - dec_val delta / two)) mags mcs in
          Ok (compress idx mags, compress idx times, compress idx mcs).

  (** b_significant.py:299-459 *)
  Definition b_significant_1D (srt : list T -> list nat) (norm_cdf : T -> T -> T -> T) (m : meth) (wn : bool) (kw : kwargs)
             (draws : nat -> nat -> list (list nat)) (mags : list T) (mc : scalar_or_array) (delta : dec) (times : list T)
             (n_m min_num : nat) (x : option (list T)) (conservative : bool) : res (T * T * T * T) :=
    let? (mags, times, mc) := prepare_1D srt mags mc delta times n_m min_num x in
    if (n_m =? 0)%nat then Err ZeroDivisionError
    else if (ofnat (length mags) / ofnat n_m) <? ofZ 3 then Ok (nnan, nnan, nnan, nnan)
    else
      let? acs := mapM (fun ii =>
          let? p := partition1 mags times mc n_m ii in
          ac_one srt m wn kw (draws ii) delta min_num p) (seq 0 n_m) in
      Ok (summary norm_cdf conservative acs).
End BSig.
Arguments scalar_or_array : clear implicits.
Arguments kwargs : clear implicits.
Arguments estimator : clear implicits.
