(** * Model of seismostats/catalogs/client.py (FDSNWSEventClient)

    A request is the dictionary of its parameters; the server is a function from requests to
    responses (status code and the events of the body; no body: no events).  The result of a
    call is the list of the parsed events together with the log of all requests sent.  Python's
    while loops may run for ever: [None] stands for "not finished within [fuel] iterations".
    Not modelled: the HTTP layer, the date format (a parameter), Catalog.from_dict (see
    Catalog_model.v). *)
From Coq Require Import ZArith List Bool String.
From Verif Require Import Base Num Dict.
Import ListNotations.
Open Scope string_scope.

Section Client.
  Context {T : Type} {N : Num T} {D E : Type} (strftime : D -> string).

  (** client.py:98-123: the values of the request parameters *)
  Inductive pval := PStr (s : string) | PNum (x : T) | PBool (b : bool) | PInt (z : Z).
  (** client.py:24-40: the arguments of get_events *)
  Record args := mkargs {
    a_start : option D; a_end : option D;
    a_minlat : option T; a_maxlat : option T; a_minlon : option T; a_maxlon : option T;
    a_minmag : option T; a_maxmag : option T;
    a_all : option bool; a_type : option string; a_delta : option T;
    a_batch : option Z; a_kwargs : dict pval }.
  (** client.py:160-161, 172-173: status code and events of a response *)
  Record response := mkresp { r_status : Z; r_events : list E }.

  Definition set_opt {A} (d : dict pval) (k : string) (f : A -> pval) (o : option A) : dict pval :=
    match o with Some x => dset d k (f x) | None => d end.
  (** client.py:98-122 *)
  Definition build_params (a : args) : dict pval :=
    let p : dict pval := [] in
    let p := set_opt p "starttime" (fun t => PStr (strftime t)) (a_start a) in
    let p := set_opt p "endtime" (fun t => PStr (strftime t)) (a_end a) in
    let p := set_opt p "minlatitude" PNum (a_minlat a) in
    let p := set_opt p "maxlatitude" PNum (a_maxlat a) in
    let p := set_opt p "minlongitude" PNum (a_minlon a) in
    let p := set_opt p "maxlongitude" PNum (a_maxlon a) in
    let p := match a_minmag a, a_delta a with
             | Some m, Some dm => dset p "minmagnitude" (PNum (m - dm / two)%num)
             | Some m, None => dset p "minmagnitude" (PNum m)
             | None, _ => p
             end in
    let p := set_opt p "maxmagnitude" PNum (a_maxmag a) in
    let p := set_opt p "includeallmagnitudes" PBool (a_all a) in
    let p := set_opt p "eventtype" PStr (a_type a) in
    dupdate p (a_kwargs a).

  Variable server : dict pval -> response.
  (** 162-169 [_exists_with_offset]: the request and the answer *)
  Definition page_params (p : dict pval) (limit offset : Z) : dict pval := dupdate p [("limit", PInt limit); ("offset", PInt offset)].
  (** client.py:166-173 *)
  Definition exists_with_offset (r : response) : bool := ((r_status r =? 200)%Z && match r_events r with [] => false | _ => true end).
  Open Scope Z_scope.
  (** 175-177: the first loop; returns the final chunk and the requests *)
  Fixpoint grow (fuel : nat) (p : dict pval) (bs chunk : Z) : option (Z * list (dict pval)) :=
    match fuel with
    | O => None
    | S fuel =>
        let q := page_params p 1 (chunk * bs + 1) in
        if exists_with_offset (server q)
        then match grow fuel p bs (chunk * 2) with Some (c, log) => Some (c, q :: log) | None => None end
        else Some (chunk, [q])
    end.
  (** 183-190: the second loop *)
  Fixpoint bisect (fuel : nat) (p : dict pval) (bs low high last : Z) : option (Z * list (dict pval)) :=
    match fuel with
    | O => None
    | S fuel =>
        if low <=? high then
          let mid := (low + high) / 2 in
          let q := page_params p 1 (mid * bs + 1) in
          let rest := if exists_with_offset (server q) then bisect fuel p bs (mid + 1) high mid
                      else bisect fuel p bs low (mid - 1) last in
          match rest with Some (c, log) => Some (c, q :: log) | None => None end
        else Some (last, [])
    end.
  (** 171-192 [_get_batch_count] *)
  Definition batch_count (fuel : nat) (p : dict pval) (bs : Z) : option (Z * list (dict pval)) :=
    match grow fuel p bs 1 with
    | None => None
    | Some (chunk, log1) =>
        match bisect fuel p bs (chunk / 2) chunk 0 with
        | None => None
        | Some (last, log2) => Some (last + 1, app log1 log2)
        end
    end.
  (** 139-145 [_get_batch_params]; range(0, n) is empty for n <= 0 *)
  Definition batch_params (p : dict pval) (bs n : Z) : list (dict pval) :=
    map (fun i => page_params p bs (1 + Z.of_nat i * bs)) (seq 0 (Z.to_nat n)).
  (** 147-160 [_get_events_batched] and 124-131: the events and the requests sent *)
  Definition get_events (fuel : nat) (a : args) : option (list E * list (dict pval)) :=
    let p := build_params a in
    match a_batch a with
    | None => Some (r_events (server p), [p])
    | Some bs =>
        match batch_count fuel p bs with
        | None => None
        | Some (n, log) =>
            let ps := batch_params p bs n in
            Some (concat (map (fun q => r_events (server q)) ps), app log ps)
        end
    end.
End Client.
Arguments pval : clear implicits.
Arguments response : clear implicits.
Arguments args : clear implicits.
