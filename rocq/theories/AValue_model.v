(** * Model of seismostats/analysis/avalue/{base,classic,positive,more_positive,__init__}.py

    The state is the estimator object (the record of its attributes) with the list of the
    warnings issued so far.  Python's builtin [sum] over an array is modelled by [nsum]. *)
From Coq Require Import ZArith List Bool String.
From Verif Require Import Base Num StateM Binning_model BValue_model.
Import ListNotations.

Section AValue.
  Context {T : Type} {N : Num T}.
  Local Open Scope num_scope.
  Local Open Scope sm_scope.

  (** base.py:13-22; times and dmc are set by the positive classes only *)
  Record aobj := mkaobj {
    ao_mags : option (list T);
    ao_mc : option T;
    ao_delta : option dec;
    ao_scaling : option T;
    ao_mref : option T;
    ao_b : option T;
    ao_idx : option (list nat);
    ao_a : option T;
    ao_times : option (list T);
    ao_dmc : option T
  }.
  (** avalue/base.py:13-22 [__init__]: a new object *)
  Definition new_aobj : aobj := mkaobj None None None None None None None None None None.
  (** the object and the warnings issued so far (warnings.warn, base.py:103-104, 119) *)
  Definition astate := (aobj * list string)%type.
  (** reading self.magnitudes, self.idx, self.times, self.dmc (base.py:15-22, positive.py:94-95); an unset attribute is never read by the code *)
  Definition omags (o : aobj) : list T := match ao_mags o with Some l => l | None => [] end.
  (** reading self.magnitudes, self.idx, self.times, self.dmc (base.py:15-22, positive.py:94-95); an unset attribute is never read by the code *)
  Definition oidx (o : aobj) : list nat := match ao_idx o with Some l => l | None => [] end.
  (** reading self.magnitudes, self.idx, self.times, self.dmc (base.py:15-22, positive.py:94-95); an unset attribute is never read by the code *)
  Definition otimes (o : aobj) : list T := match ao_times o with Some l => l | None => [] end.
  (** reading self.magnitudes, self.idx, self.times, self.dmc (base.py:15-22, positive.py:94-95); an unset attribute is never read by the code *)
  Definition odmc (o : aobj) : T := match ao_dmc o with Some d => d | None => nnan end.

  (** assignment to an attribute (base.py:69-84, 99-100; positive.py:94-95, 116, 121-123, 132-133, 143) *)
  Definition put_mags v o := mkaobj (Some v) (ao_mc o) (ao_delta o) (ao_scaling o) (ao_mref o) (ao_b o) (ao_idx o) (ao_a o) (ao_times o) (ao_dmc o).
  (** assignment to an attribute (base.py:69-84, 99-100; positive.py:94-95, 116, 121-123, 132-133, 143) *)
  Definition put_idx v o := mkaobj (ao_mags o) (ao_mc o) (ao_delta o) (ao_scaling o) (ao_mref o) (ao_b o) (Some v) (ao_a o) (ao_times o) (ao_dmc o).
  (** assignment to an attribute (base.py:69-84, 99-100; positive.py:94-95, 116, 121-123, 132-133, 143) *)
  Definition put_a v o := mkaobj (ao_mags o) (ao_mc o) (ao_delta o) (ao_scaling o) (ao_mref o) (ao_b o) (ao_idx o) (Some v) (ao_times o) (ao_dmc o).
  (** assignment to an attribute (base.py:69-84, 99-100; positive.py:94-95, 116, 121-123, 132-133, 143) *)
  Definition put_times v o := mkaobj (ao_mags o) (ao_mc o) (ao_delta o) (ao_scaling o) (ao_mref o) (ao_b o) (ao_idx o) (ao_a o) (Some v) (ao_dmc o).
  (** assignment to an attribute (base.py:69-84, 99-100; positive.py:94-95, 116, 121-123, 132-133, 143) *)
  Definition put_dmc v o := mkaobj (ao_mags o) (ao_mc o) (ao_delta o) (ao_scaling o) (ao_mref o) (ao_b o) (ao_idx o) (ao_a o) (ao_times o) (Some v).

  (** helpers of the model: an assignment to, and a reading of, the attributes of self (avalue/base.py:69-100) *)
  Definition upd (f : aobj -> aobj) : SM astate unit := sput (fun s => (f (fst s), snd s)).
  (** helpers of the model: an assignment to, and a reading of, the attributes of self (avalue/base.py:69-100) *)
  Definition self : SM astate aobj := fun s => (s, Ok (fst s)).
  (** [if get_option('warnings') is True: warnings.warn(...)] *)
  (** avalue/base.py:103-104, 117-119 *)
  Definition awarn (w : bool) (m : string) : SM astate unit :=
    if w then sput (fun s => (fst s, snd s ++ [m])) else sret tt.

  (** the three classes: avalue/classic.py:7, positive.py:13, more_positive.py:14 *)
  Inductive akind := AClassic | APositive | AMorePositive.

  (** arguments of calculate; times and dmc are arguments of the positive classes only *)
  Record aargs := mkaargs {
    aa_mags : list T;
    aa_mc : T;
    aa_delta : dec;
    aa_scaling : option T;
    aa_mref : option T;
    aa_b : option T;
    aa_times : list T;
    aa_dmc : option T
  }.

  (** base.py:106-122 [_sanity_checks] *)
  Definition a_sanity_checks (w : bool) (a : aargs) : SM astate unit :=
    do o <- self;;
    match omags o with
    | [] => sret tt
    | x :: t =>
      do b <- slift (binning_test (x :: t) (aa_delta a) (lit 1 15) false);;
      if b then
        if (amin x t - aa_mc a) >? dec_val (aa_delta a) / two then awarn w "lowest bin" else sret tt
      else sraise ValueError
    end.

  (** base.py:95-104 [_filter_magnitudes]; positive.py:111-116, more_positive.py:117-122 *)
  Definition a_filter_magnitudes (k : akind) (w : bool) (a : aargs) : SM astate unit :=
    do o <- self;;
    let idx := where_idx (map (fun m => m >=? (aa_mc a - dec_val (aa_delta a) / two)) (omags o)) in
    upd (put_idx idx);;;
    do ms <- slift (gather (omags o) idx);;
    upd (put_mags ms);;;
    match ms with [] => awarn w "no magnitudes" | _ => sret tt end;;;
    match k with
    | AClassic => sret tt
    | _ => do ts <- slift (gather (otimes o) idx);; upd (put_times ts)
    end.

  (** positive.py:120-123, more_positive.py:126-129: order by time *)
  Definition a_order_by_time (argsort : list T -> list nat) : SM astate unit :=
    do o <- self;;
    let srt := argsort (otimes o) in
    do ms <- slift (gather (omags o) srt);;
    upd (put_mags ms);;;
    do ts <- slift (gather (otimes o) srt);;
    upd (put_times ts);;;
    do ix <- slift (gather (oidx o) srt);;
    upd (put_idx ix).

  (** times[-1], times[0]: positive.py:142, more_positive.py:140-146 *)
  Definition last_of (l : list T) : T := last l nnan.
  Definition first_of (l : list T) : T := hd nnan l.

  (** positive.py:118-149 [_estimate] *)
  Definition a_estimate_positive (argsort : list T -> list nat) (w : bool) (a : aargs) : SM astate T :=
    a_order_by_time argsort;;;
    do o <- self;;
    let mag_diffs := np_diff (omags o) in
    let time_diffs := np_diff (otimes o) in
    let is_larger := map (fun x => x >=? (odmc o - dec_val (aa_delta a) / two)) mag_diffs in
    let time_diffs := compress is_larger time_diffs in
    upd (put_mags (compress is_larger (tl (omags o))));;;
    upd (put_idx (compress is_larger (tl (oidx o))));;;
    match time_diffs with
    | [] => awarn w "not enough events";;; sret nnan
    | _ =>
      let total_time := last_of (otimes o) - first_of (otimes o) in
      upd (put_times (compress is_larger (tl (otimes o))));;;
      let time_factor := nsum (map (fun x => x / total_time) time_diffs) in
      let n_pos := ofnat (count (fun b => b) is_larger) / time_factor in
      sret (nlog10 n_pos)
    end.

  (** more_positive.py:124-169 [_estimate]; 144-146: the entries of time_diffs of the events
      without a next larger one are overwritten by the time to the last event *)
  Definition a_estimate_more_positive (argsort : list T -> list nat) (w : bool) (a : aargs) (b : T) : SM astate T :=
    a_order_by_time argsort;;;
    do o <- self;;
    let nxt := find_next_larger (omags o) (dec_val (aa_delta a)) (Some (odmc o)) in
    do tn <- slift (gather (otimes o) nxt);;
    let time_diffs := map2 nsub tn (otimes o) in
    let no_next := map (fun j => (j =? 0)%nat) nxt in
    if (count (fun b => b) no_next =? List.length nxt)%nat then
      upd (put_mags []);;; upd (put_times []);;; upd (put_idx []);;;
      awarn w "not enough events";;; sret nnan
    else
      let time_diffs := map2 (fun (nn : bool) (p : T * T) => if nn then last_of (otimes o) - snd p else fst p)
                             no_next (zip time_diffs (otimes o)) in
      let total_time := last_of (otimes o) - first_of (otimes o) in
      let tau := map2 (fun td m => td * npow10 (nopp b * (m + odmc o - aa_mc a))) time_diffs (omags o) in
      let time_factor := nsum (map (fun x => x / total_time) tau) in
      let n_more := ofnat (count negb no_next) / time_factor in
      let nxt := compress (map negb no_next) nxt in
      do ms <- slift (gather (omags o) nxt);;
      upd (put_mags ms);;;
      do ts <- slift (gather (otimes o) nxt);;
      upd (put_times ts);;;
      do ix <- slift (gather (oidx o) nxt);;
      upd (put_idx ix);;;
      sret (nlog10 n_more).

  (** classic.py:39-40 *)
  Definition a_estimate (argsort : list T -> list nat) (k : akind) (w : bool) (a : aargs) : SM astate T :=
    match k with
    | AClassic => do o <- self;; sret (nlog10 (ofnat (List.length (omags o))))
    | APositive => a_estimate_positive argsort w a
    | AMorePositive => match aa_b a with
                       | Some b => a_estimate_more_positive argsort w a b
                       | None => sraise TypeError  (* not reachable: b_value is checked first *)
                       end
    end.

  (** base.py:124-142 [_reference_scaling] *)
  Definition a_reference_scaling (a : aargs) (v : T) : res T :=
    let? v := match aa_mref a with
              | None => Ok v
              | Some m_ref => match aa_b a with
                              | None => Err ValueError
                              | Some b => Ok (v - b * (m_ref - aa_mc a))
                              end
              end in
    match aa_scaling a with
    | None => Ok v
    | Some s => Ok (v - nlog10 s)
    end.

  (** base.py:24-83 [calculate] *)
  Definition a_base_calculate (argsort : list T -> list nat) (k : akind) (w : bool) (a : aargs) : SM astate T :=
    upd (fun o => mkaobj (Some (aa_mags a)) (Some (aa_mc a)) (Some (aa_delta a)) (aa_scaling a) (aa_mref a) (aa_b a)
                    (ao_idx o) (ao_a o) (ao_times o) (ao_dmc o));;;
    a_sanity_checks w a;;;
    a_filter_magnitudes k w a;;;
    do o <- self;;
    match omags o with
    | [] => upd (put_a nnan);;; sret nnan
    | _ => do v <- a_estimate argsort k w a;;
           upd (put_a v);;;
           do v' <- slift (a_reference_scaling a v);;
           upd (put_a v');;;
           sret v'
    end.

  (** [not b_value]: None and 0 are falsy (NaN is truthy) *)
  Definition falsy (b : option T) : bool := match b with None => true | Some x => x =? zero end.

  (** positive.py:94-111, more_positive.py:91-114: the overridden [calculate] *)
  Definition a_calculate (argsort : list T -> list nat) (k : akind) (w : bool) (a : aargs) : SM astate T :=
    match k with
    | AClassic => a_base_calculate argsort k w a
    | _ =>
      (match k with AMorePositive => if falsy (aa_b a) then sraise ValueError else sret tt | _ => sret tt end);;;
      let dmc := match aa_dmc a with Some d => d | None => dec_val (aa_delta a) end in
      upd (put_times (aa_times a));;;
      upd (put_dmc dmc);;;
      (if dmc <? zero then sraise ValueError else sret tt);;;
      (if dmc <? dec_val (aa_delta a) then awarn w "dmc small" else sret tt);;;
      a_base_calculate argsort k w a
    end.

  (** base.py:148-181: the properties a_value / value and n *)
  Definition a_value (o : aobj) : res T := match ao_a o with None => Err AttributeError | Some v => Ok v end.
  Definition a_n (o : aobj) : res nat := rmap (fun _ => List.length (omags o)) (a_value o).

  (** avalue/__init__.py:12-83 [estimate_a] *)
  Definition estimate_a (argsort : list T -> list nat) (k : akind) (w : bool) (a : aargs) : res T :=
    let '(s, r) := a_calculate argsort k w a (new_aobj, []) in
    let? _ := r in a_value (fst s).
End AValue.
