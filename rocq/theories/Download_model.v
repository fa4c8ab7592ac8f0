(** * FDSNWSEventClient.get_events with its result: seismostats/catalogs/client.py:98-145

    ClientText_model.v gives the records of a download and Table_model.v a table of records.  Here
    they are put together.  Not modelled: the HTTP layer. *)
From Coq Require Import ZArith QArith List Bool String.
From Verif Require Import Base Num Dict QuakeML_model Xml_model Client_model ClientText_model Catalog_model Table_model.
Import ListNotations.
Open Scope string_scope.

Section Download.
  Context {T : Type} {N : Num T} {D : Type} (strftime : D -> string).
  (** client.py:127, 157, 172: status code and body of the response to a request *)
  Variable server : dict (pval T) -> Z * string.
  (** the XML reader and the conversions of the parser: parser.py:331-356 *)
  Variable cut : list sax -> string -> list string.
  Variable to_float : option string -> res Q.
  Variable to_time : option string -> res Z.
  Variable set_order : list (option string) -> list (option string).
  (** client.py:135-138: a catalogue with the attributes starttime and endtime (None if they are not set) *)
  Record dated := mkdated { d_made : made T; d_start : option D; d_end : option D }.
  (** client.py:98-140 [get_events]: the result and the requests sent.  A date is always true in a
      condition. *)
  Definition get_events (fuel : nat) (iu ii iq : bool) (a : args T D) : option (dated * list (dict (pval T))) :=
    match get_events_text strftime server cut to_float to_time set_order fuel iq a with
    | None => None
    | Some (x, log) => Some (mkdated (make IsCatalog x iu ii) (a_start a) (a_end a), log)
    end.
End Download.
