(** * Model of seismostats/analysis/bvalue/{base,classic,utsu,positive,more_positive,utils}.py

    The estimator object is a record of its attributes; its methods run in a monad in
    which attribute writes made before an exception survive, as in Python. *)
From Coq Require Import ZArith List Bool String.
From Verif Require Import Base Num Binning_model.
Import ListNotations.

Section BValue.
  Context {T : Type} {N : Num T}.
  Local Open Scope num_scope.

  (** ** bvalue/utils.py *)

  (** utils.py:41-50 *)
  Definition beta_to_b_value (beta : T) : T := beta / nln (ofZ 10).
  (** utils.py:53-62 *)
  Definition b_value_to_beta (b : T) : T := b * nln (ofZ 10).

  (** np.average(xs, weights): the mean without weights (NaN for an empty array); with
      weights ZeroDivisionError if they sum to zero. *)
  (** classic.py:16, 19; utsu.py:41; utils.py:91-92 (numpy) *)
  Definition np_average (xs : list T) (ws : option (list T)) : res T :=
    match ws with
    | None => Ok (nmean xs)
    | Some w => let scl := nsum w in
                if scl =? zero then Err ZeroDivisionError
                else Ok (nsum (map2 nmul xs w) / scl)
    end.

  Inductive bparam := PB | PBeta | POther.

  (** utils.py:64-104 [shi_bolt_confidence] *)
  Definition shi_bolt_confidence (mags : list T) (b : T) (ws : option (list T)) (par : bparam) : res T :=
    match par with
    | POther => Err ValueError
    | _ =>
      let? av := np_average mags ws in
      let? var := np_average (map (fun m => square (m - av)) mags) ws in
      let std_mags := nsqrt var in
      let len_mags := match ws with None => ofnat (List.length mags) | Some w => nsum w end in
      let std_b := nln (ofZ 10) * square b * std_mags / nsqrt (len_mags - one) in
      Ok (match par with PBeta => std_b / nln (ofZ 10) | _ => std_b end)
    end.

  (** utils.py:107-135 [find_next_larger]; dmc=None is resolved by the caller here:
      the loop body for element [ii] scans jj = ii+1, ... *)
  Fixpoint first_larger (thr m : T) (jj : nat) (rest : list T) : nat :=
    match rest with
    | [] => 0%nat
    | x :: t => if (x - m) >=? thr then jj else first_larger thr m (S jj) t
    end.
  (** utils.py:129-134: the loop over ii; the rest of the array is searched for the first larger magnitude *)
  Fixpoint find_next_larger_from (thr : T) (ii : nat) (mags : list T) : list nat :=
    match mags with
    | [] => []
    | m :: t => first_larger thr m (S ii) t :: find_next_larger_from thr (S ii) t
    end.
  (** utils.py:107-135 *)
  Definition find_next_larger (mags : list T) (delta_m : T) (dmc : option T) : list nat :=
    let dmc' := match dmc with None => delta_m | Some d => d end in
    find_next_larger_from (dmc' - delta_m / two) 0 mags.

  (** utils.py:138-191 [make_more_incomplete]: [srt] is the result of np.argsort(times).
      The body of the loop over ii (176-185): idx_close are the positions before ii closer
      than delta_t, idx_loop says which of them are larger than event ii; the flag idx[ii]
      is cleared if there are any.  The loop writes idx[ii] only, so it is written as the
      list of the flags; ii = 0 has no predecessors and keeps True. *)
  Definition hidden_flag (ms ts : list T) (delta_t : T) (ii : nat) : res bool :=
    match nth_error ms ii, nth_error ts ii with
    | Some m, Some t =>
      let idx_close := where_idx (map (fun t' => (t - t') <? delta_t) (firstn ii ts)) in
      let? close := gather ms idx_close in
      let idx_loop := map (fun m' => m' >? m) close in
      Ok (if (0 <? count (fun b => b) idx_loop)%nat then false else true)
    | _, _ => Err IndexError
    end.
  (** helper of the model: a list comprehension whose element function may raise *)
  Fixpoint mapM {A B} (f : A -> res B) (l : list A) : res (list B) :=
    match l with [] => Ok [] | x :: t => let? y := f x in let? ys := mapM f t in Ok (y :: ys) end.
  (** utils.py:138-191 *)
  Definition make_more_incomplete (argsort : list T -> list nat) (mags times : list T) (delta_t : T)
    : res (list T * list T * list bool) :=
    let srt := argsort times in
    let? ms := gather mags srt in
    let? ts := gather times srt in
    let? idx := mapM (hidden_flag ms ts delta_t) (seq 0 (List.length ms)) in
    Ok (compress idx ms, compress idx ts, idx).

  (** utils.py:7-38 [bootstrap_std]: [draws] are the n resamples drawn by the generator *)
  Definition np_std1 (l : list T) : T :=
    let m := nmean l in
    nsqrt (nsum (map (fun x => square (x - m)) l) / ofZ (Z.of_nat (List.length l) - 1)).
  Definition bootstrap_std {A} (draws : list (list A)) (func : list A -> res T) : res T :=
    let? est := mapM func draws in
    let est := filter (fun e => negb (nisinf e) && negb (nisnan e)) est in
    match est with [] => Err ValueError | _ => Ok (np_std1 est) end.

  (** ** classic.py:7-21 [_mle_estimator] *)
  Definition mle_estimator (mags : list T) (mc : T) (delta_m : dec) (ws : option (list T)) : res T :=
    let d := dec_val delta_m in
    let? av := np_average (map (fun m => m - mc) mags) ws in
    let beta := if d >? zero then one / d * nln (one + d / av) else one / av in
    Ok (beta_to_b_value beta).

  (** utsu.py:40-43 *)
  Definition utsu_estimator (mags : list T) (mc : T) (delta_m : dec) (ws : option (list T)) : res T :=
    let? av := np_average (map (fun m => m - mc + dec_val delta_m / two) mags) ws in
    Ok (beta_to_b_value (one / av)).

  (** ** The estimator object (base.py:17-26; times and dmc of the positive classes) *)
  Record obj := mkobj {
    o_mags : option (list T);
    o_mc : option T;
    o_delta : option dec;
    o_weights : option (list T);
    o_idx : option (list nat);
    o_b : option T;
    o_orig_mags : option (list T);
    o_orig_weights : option (list T);
    o_times : option (list T);
    o_dmc : option T;
    o_warnings : list string   (* ghost: warnings issued so far *)
  }.
  (** base.py:17-26 [__init__]: a new object *)
  Definition new_obj : obj := mkobj None None None None None None None None None None [].
  (** reading self.magnitudes, self.idx, self.dmc (base.py:246-258, positive.py:140-166) *)
  Definition mags_of (o : obj) : list T := match o_mags o with Some l => l | None => [] end.
  (** reading self.magnitudes, self.idx, self.dmc (base.py:246-258, positive.py:140-166) *)
  Definition idx_of (o : obj) : list nat := match o_idx o with Some l => l | None => [] end.
  (** reading self.magnitudes, self.idx, self.dmc (base.py:246-258, positive.py:140-166) *)
  Definition dmc_of (o : obj) : T := match o_dmc o with Some d => d | None => nnan end.

  (** assignment to an attribute (base.py:72-83, 97-101, 253-301; positive.py:98-136, 147-166; more_positive.py:104-115, 204-223) *)
  Definition set_mags v o := mkobj (Some v) (o_mc o) (o_delta o) (o_weights o) (o_idx o) (o_b o) (o_orig_mags o) (o_orig_weights o) (o_times o) (o_dmc o) (o_warnings o).
  (** assignment to an attribute (base.py:72-83, 97-101, 253-301; positive.py:98-136, 147-166; more_positive.py:104-115, 204-223) *)
  Definition set_mc v o := mkobj (o_mags o) (Some v) (o_delta o) (o_weights o) (o_idx o) (o_b o) (o_orig_mags o) (o_orig_weights o) (o_times o) (o_dmc o) (o_warnings o).
  (** assignment to an attribute (base.py:72-83, 97-101, 253-301; positive.py:98-136, 147-166; more_positive.py:104-115, 204-223) *)
  Definition set_delta v o := mkobj (o_mags o) (o_mc o) (Some v) (o_weights o) (o_idx o) (o_b o) (o_orig_mags o) (o_orig_weights o) (o_times o) (o_dmc o) (o_warnings o).
  (** assignment to an attribute (base.py:72-83, 97-101, 253-301; positive.py:98-136, 147-166; more_positive.py:104-115, 204-223) *)
  Definition set_weights v o := mkobj (o_mags o) (o_mc o) (o_delta o) v (o_idx o) (o_b o) (o_orig_mags o) (o_orig_weights o) (o_times o) (o_dmc o) (o_warnings o).
  (** assignment to an attribute (base.py:72-83, 97-101, 253-301; positive.py:98-136, 147-166; more_positive.py:104-115, 204-223) *)
  Definition set_idx v o := mkobj (o_mags o) (o_mc o) (o_delta o) (o_weights o) (Some v) (o_b o) (o_orig_mags o) (o_orig_weights o) (o_times o) (o_dmc o) (o_warnings o).
  (** assignment to an attribute (base.py:72-83, 97-101, 253-301; positive.py:98-136, 147-166; more_positive.py:104-115, 204-223) *)
  Definition set_b v o := mkobj (o_mags o) (o_mc o) (o_delta o) (o_weights o) (o_idx o) (Some v) (o_orig_mags o) (o_orig_weights o) (o_times o) (o_dmc o) (o_warnings o).
  (** assignment to an attribute (base.py:72-83, 97-101, 253-301; positive.py:98-136, 147-166; more_positive.py:104-115, 204-223) *)
  Definition set_orig_mags v o := mkobj (o_mags o) (o_mc o) (o_delta o) (o_weights o) (o_idx o) (o_b o) (Some v) (o_orig_weights o) (o_times o) (o_dmc o) (o_warnings o).
  (** assignment to an attribute (base.py:72-83, 97-101, 253-301; positive.py:98-136, 147-166; more_positive.py:104-115, 204-223) *)
  Definition set_orig_weights v o := mkobj (o_mags o) (o_mc o) (o_delta o) (o_weights o) (o_idx o) (o_b o) (o_orig_mags o) (Some v) (o_times o) (o_dmc o) (o_warnings o).
  (** assignment to an attribute (base.py:72-83, 97-101, 253-301; positive.py:98-136, 147-166; more_positive.py:104-115, 204-223) *)
  Definition set_times v o := mkobj (o_mags o) (o_mc o) (o_delta o) (o_weights o) (o_idx o) (o_b o) (o_orig_mags o) (o_orig_weights o) v (o_dmc o) (o_warnings o).
  (** assignment to an attribute (base.py:72-83, 97-101, 253-301; positive.py:98-136, 147-166; more_positive.py:104-115, 204-223) *)
  Definition set_dmc v o := mkobj (o_mags o) (o_mc o) (o_delta o) (o_weights o) (o_idx o) (o_b o) (o_orig_mags o) (o_orig_weights o) (o_times o) (Some v) (o_warnings o).
  (** warnings.warn (base.py:104, 119-127; positive.py:96; more_positive.py:102) *)
  Definition add_warning s o := mkobj (o_mags o) (o_mc o) (o_delta o) (o_weights o) (o_idx o) (o_b o) (o_orig_mags o) (o_orig_weights o) (o_times o) (o_dmc o) (o_warnings o ++ [s]).

  (** methods *)
  (** methods as state transformers: the object after the call and the value or exception; attributes set before an exception keep their new values (base.py:28-83) *)
  Definition M (A : Type) := obj -> obj * res A.
  (** methods as state transformers: the object after the call and the value or exception; attributes set before an exception keep their new values (base.py:28-83) *)
  Definition ret {A} (a : A) : M A := fun o => (o, Ok a).
  (** methods as state transformers: the object after the call and the value or exception; attributes set before an exception keep their new values (base.py:28-83) *)
  Definition bind {A B} (m : M A) (f : A -> M B) : M B :=
    fun o => match m o with (o', Ok a) => f a o' | (o', Err e) => (o', Err e) end.
  (** methods as state transformers: the object after the call and the value or exception; attributes set before an exception keep their new values (base.py:28-83) *)
  Definition raise {A} (e : exn) : M A := fun o => (o, Err e).
  (** methods as state transformers: the object after the call and the value or exception; attributes set before an exception keep their new values (base.py:28-83) *)
  Definition modify (f : obj -> obj) : M unit := fun o => (f o, Ok tt).
  (** methods as state transformers: the object after the call and the value or exception; attributes set before an exception keep their new values (base.py:28-83) *)
  Definition get : M obj := fun o => (o, Ok o).
  (** methods as state transformers: the object after the call and the value or exception; attributes set before an exception keep their new values (base.py:28-83) *)
  Definition lift {A} (r : res A) : M A := fun o => (o, r).

  Notation "'do' x '<-' m ';;' k" := (bind m (fun x => k)) (at level 200, x pattern, m at level 100, k at level 200).
  Notation "m ';;;' k" := (bind m (fun _ => k)) (at level 199, right associativity).

  (** get_option('warnings') is True; warnings.warn(...) *)
  (** base.py:103-104, 116-127; positive.py:95-96; more_positive.py:101-102 *)
  Definition warn (w : bool) (s : string) : M unit := if w then modify (add_warning s) else ret tt.

  (** the four classes: classic.py:24, utsu.py:7, positive.py:13, more_positive.py:14 *)
  Inductive kind := Classic | Utsu | BPositive | BMorePositive.

  (** arguments of calculate *)
  (** base.py:28-33, positive.py:44-51, more_positive.py:48-55: arguments of calculate *)
  Record args := mkargs {
    a_mags : list T;
    a_mc : T;
    a_delta : dec;
    a_weights : option (list T);
    a_times : option (list T);     (* positive estimators only *)
    a_dmc : option T               (* positive estimators only *)
  }.

  (** estimate_mc.py:150, 269, 536, 549; plots/statistical.py:55, 207; b_significant.py:256:
      the arguments that are passed on to calculate unchanged ( **kwargs ).  An argument that the
      class does not have (times, dmc of Classic and Utsu: TypeError) is not modelled here. *)
  Record bkwargs := mkbkw {
    bk_weights : option (list T);
    bk_times : option (list T);
    bk_dmc : option T
  }.
  (** calculate(mags, mc, delta_m, **kwargs): estimate_mc.py:268, 536, 549; statistical.py:54, 206; b_significant.py:255 *)
  Definition with_kw (mags : list T) (mc : T) (delta : dec) (kw : bkwargs) : args :=
    mkargs mags mc delta (bk_weights kw) (bk_times kw) (bk_dmc kw).
  (** a call without further arguments (estimate_mc.py:268) *)
  Definition no_kw : bkwargs := mkbkw None None None.

  (** the two statistics of a sorted/filtered state used by the estimators *)
  (** np.diff, positive.py:122 *)
  Definition np_diff (l : list T) : list T :=
    match l with [] => [] | x :: t => map2 (fun a b => b - a) (x :: t) t end.

  (** base.py:106-130 [_sanity_checks]; binning_test with its default tolerance 1e-15 *)
  Definition sanity_checks (w : bool) (a : args) : M unit :=
    do o <- get;;
    match mags_of o with
    | [] => ret tt
    | x :: t =>
      do b <- lift (binning_test (x :: t) (a_delta a) (lit 1 15) false);;
      if b then
        if (amin x t - a_mc a) >? dec_val (a_delta a) / two then warn w "lowest bin" else ret tt
      else raise ValueError
    end;;;
    match o_weights o with
    | None => ret tt
    | Some ws =>
      if negb (List.length (mags_of o) =? List.length ws)%nat then raise IndexError
      else if existsb (fun v => v <? zero) ws then raise ValueError
      else ret tt
    end.

  (** base.py:91-105 [_filter_magnitudes]; positive.py:103-109 and more_positive.py:112-118
      also filter the times. *)
  Definition filter_magnitudes (k : kind) (w : bool) (a : args) : M unit :=
    do o <- get;;
    let thr := a_mc a - dec_val (a_delta a) / two in
    let idx := where_idx (map (fun m => m >=? thr) (mags_of o)) in
    modify (set_idx idx);;;
    do ms <- lift (gather (mags_of o) idx);;
    modify (set_mags ms);;;
    match o_weights o with
    | None => ret tt
    | Some ws => do ws' <- lift (gather ws idx);; modify (set_weights (Some ws'))
    end;;;
    match ms with [] => warn w "no magnitudes" | _ => ret tt end;;;
    match k with
    | Classic | Utsu => ret tt
    | _ => match o_times o with
           | None => ret tt
           | Some ts => do ts' <- lift (gather ts idx);; modify (set_times (Some ts'))
           end
    end.

  (** positive.py:113-120 / more_positive.py:121-129: order by time *)
  Definition order_by_time (argsort : list T -> list nat) (orig : bool) : M unit :=
    do o <- get;;
    match o_times o with
    | None => ret tt
    | Some ts =>
      let srt := argsort ts in
      do ms <- lift (gather (mags_of o) srt);;
      modify (set_mags ms);;;
      (if orig then
         do om <- lift (gather (match o_orig_mags o with Some l => l | None => [] end) srt);;
         modify (set_orig_mags om)
       else ret tt);;;
      do ts' <- lift (gather ts srt);;
      modify (set_times (Some ts'));;;
      match o_weights o with
      | None => ret tt
      | Some ws => do ws' <- lift (gather ws srt);; modify (set_weights (Some ws'));;;
                   (if orig then
                      do ow <- lift (gather (match o_orig_weights o with Some l => l | None => [] end) srt);;
                      modify (set_orig_weights ow)
                    else ret tt)
      end;;;
      do ix <- lift (gather (idx_of o) srt);;
      modify (set_idx ix)
    end.

  (** positive.py:111-139 [BPositiveBValueEstimator._estimate] *)
  Definition estimate_positive (argsort : list T -> list nat) (a : args) : M T :=
    order_by_time argsort false;;;
    do o <- get;;
    let d := dec_val (a_delta a) in
    let diffs := np_diff (mags_of o) in
    let is_larger := map (fun x => x >=? (dmc_of o - d / two)) diffs in
    do diffs' <- (if d >? zero then lift (bin_to_precision (Some diffs) (a_delta a)) else ret diffs);;
    modify (set_mags (compress is_larger diffs'));;;
    modify (set_idx (compress is_larger (tl (idx_of o))));;;
    match o_weights o with
    | None => ret tt
    | Some ws => modify (set_weights (Some (compress is_larger (tl ws))))
    end;;;
    match o_times o with
    | None => ret tt
    | Some ts => modify (set_times (Some (compress is_larger (tl ts))))
    end;;;
    do o' <- get;;
    lift (mle_estimator (mags_of o') (dmc_of o') (a_delta a) (o_weights o')).

  (** more_positive.py:117-149 [BMorePositiveBValueEstimator._estimate] *)
  Definition estimate_more_positive (argsort : list T -> list nat) (a : args) : M T :=
    order_by_time argsort true;;;
    do o <- get;;
    let d := dec_val (a_delta a) in
    let nxt := find_next_larger (mags_of o) d (Some (dmc_of o)) in
    do larger <- lift (gather (mags_of o) nxt);;
    do diffs <- lift (bin_to_precision (Some (map2 nsub larger (mags_of o))) (a_delta a));;
    let has_next := map (fun j => negb (j =? 0)%nat) nxt in
    modify (set_mags (compress has_next diffs));;;
    let nxt' := compress has_next nxt in
    do ix <- lift (gather (idx_of o) nxt');;
    modify (set_idx ix);;;
    match o_weights o with
    | None => ret tt
    | Some ws => do ws' <- lift (gather ws nxt');; modify (set_weights (Some ws'))
    end;;;
    match o_times o with
    | None => ret tt
    | Some ts => do ts' <- lift (gather ts nxt');; modify (set_times (Some ts'))
    end;;;
    do o' <- get;;
    lift (mle_estimator (mags_of o') (dmc_of o') (a_delta a) (o_weights o')).

  Definition estimate (argsort : list T -> list nat) (k : kind) (a : args) : M T :=
    match k with
    | Classic => do o <- get;; lift (mle_estimator (mags_of o) (a_mc a) (a_delta a) (o_weights o))
    | Utsu => do o <- get;; lift (utsu_estimator (mags_of o) (a_mc a) (a_delta a) (o_weights o))
    | BPositive => estimate_positive argsort a
    | BMorePositive => estimate_more_positive argsort a
    end.

  (** base.py:28-82 [calculate] *)
  Definition base_calculate (argsort : list T -> list nat) (k : kind) (w : bool) (a : args) : M T :=
    modify (set_mags (a_mags a));;;
    modify (set_mc (a_mc a));;;
    modify (set_delta (a_delta a));;;
    modify (set_weights (a_weights a));;;
    sanity_checks w a;;;
    filter_magnitudes k w a;;;
    do o <- get;;
    modify (set_orig_mags (mags_of o));;;
    match o_weights o with None => ret tt | Some ws => modify (set_orig_weights ws) end;;;
    match mags_of o with
    | [] => modify (set_b nnan);;; ret nnan
    | _ => do b <- estimate argsort k a;; modify (set_b b);;; ret b
    end.

  (** positive.py:44-101 / more_positive.py:46-110: the overridden [calculate] *)
  Definition calculate (argsort : list T -> list nat) (k : kind) (w : bool) (a : args) : M T :=
    match k with
    | Classic | Utsu => base_calculate argsort k w a
    | _ =>
      let dmc := match a_dmc a with Some d => d | None => dec_val (a_delta a) end in
      modify (set_times (a_times a));;;
      modify (set_dmc dmc);;;
      (if dmc <? zero then raise ValueError else ret tt);;;
      (if dmc <? dec_val (a_delta a) then warn w "dmc small" else ret tt);;;
      base_calculate argsort k w a
    end.

  (** ** accessors (base.py:144-199, 238-252) *)
  Definition b_value (o : obj) : res T := match o_b o with None => Err AttributeError | Some b => Ok b end.
  (** base.py:157-163 *)
  Definition est_beta (o : obj) : res T := rmap b_value_to_beta (b_value o).
  (** base.py:231-237 *)
  Definition est_n (o : obj) : res nat := rmap (fun _ => List.length (mags_of o)) (b_value o).
  (** std / std_beta of Classic, Utsu and BPositive *)
  (** base.py:165-175 *)
  Definition est_std (o : obj) : res T :=
    let? b := b_value o in shi_bolt_confidence (mags_of o) b (o_weights o) PB.
  (** base.py:177-187 *)
  Definition est_std_beta (o : obj) : res T :=
    let? b := est_beta o in shi_bolt_confidence (mags_of o) b (o_weights o) PBeta.

  (** more_positive.py:155-199: bootstrap uncertainty; [draws] are the resampled index
      arrays, sorted by np.sort in the code *)
  Definition bootstrap_func (argsort : list T -> list nat) (w : bool) (o : obj) (mc : T) (delta : dec)
             (draw : list nat) : res T :=
    let draw := isort Nat.leb draw in
    let? ms := gather (match o_orig_mags o with Some l => l | None => [] end) draw in
    let? ws := match o_weights o with
               | None => Ok None
               | Some _ => rmap Some (gather (match o_orig_weights o with Some l => l | None => [] end) draw)
               end in
    snd (calculate argsort BMorePositive w (mkargs ms mc delta ws None (o_dmc o)) new_obj).
  Definition more_positive_std (argsort : list T -> list nat) (w : bool) (draws : list (list nat)) (o : obj) : res T :=
    let? _ := b_value o in
    match o_mc o, o_delta o with
    | Some mc, Some delta => bootstrap_std draws (bootstrap_func argsort w o mc delta)
    | _, _ => Err TypeError
    end.

  (** ** bvalue/__init__.py:17-119 [estimate_b]: the returned Python value *)
  Inductive outval := OutB (b : T) | OutBStd (b std : T) | OutBStdN (b std : T) (n : nat).
  (** bvalue/__init__.py:17-119 *)
  Definition estimate_b (argsort : list T -> list nat) (k : kind) (w : bool) (a : args) (par : bparam)
             (return_std return_n : bool) (draws : list (list nat)) : res outval :=
    let '(o, r) := calculate argsort k w a new_obj in
    let? _ := r in
    let? b := match par with PB => b_value o | PBeta => est_beta o | POther => Err ValueError end in
    let? std :=
      if return_std then
        rmap Some (match k, par with
                   | BMorePositive, PB => more_positive_std argsort w draws o
                   | BMorePositive, _ => rmap b_value_to_beta (more_positive_std argsort w draws o)
                   | _, PB => est_std o
                   | _, _ => est_std_beta o
                   end)
      else Ok None in
    match std, return_n with
    | None, false => Ok (OutB b)
    | Some s, false => Ok (OutBStd b s)
    | None, true => Err TypeError         (* tuple(out) of a float: not iterable *)
    | Some s, true => rmap (OutBStdN b s) (est_n o)
    end.
End BValue.
