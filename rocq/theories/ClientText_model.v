(** * Model of seismostats/catalogs/client.py with the responses as texts

    Client_model.v works with the events of a response; here the server answers a request with a
    status code and a body, which is read by parse_quakeml_response (Xml_model.v).  Not modelled: the
    HTTP layer (exceptions of [requests], compression), Catalog.from_dict (see Catalog_model.v). *)
From Coq Require Import ZArith QArith List Bool String.
From Verif Require Import Base Num Dict QuakeML_model Xml_model Client_model.
Import ListNotations.
Open Scope string_scope.

Section ClientText.
  Context {T : Type} {N : Num T} {D : Type} (strftime : D -> string).
  Notation params := (dict (pval T)).
  (** client.py:127, 157, 172: status code and body of the response to a request *)
  Variable server : params -> Z * string.
  (** the XML reader and the conversions of the parser: parser.py:331-356 *)
  Variable cut : list sax -> string -> list string.
  Variable to_float : option string -> res Q.
  Variable to_time : option string -> res Z.
  Variable set_order : list (option string) -> list (option string).

  (** client.py:162-173: what [_exists_with_offset] looks at, the status and whether there is a body *)
  Definition probe_view (q : params) : response string :=
    mkresp (fst (server q)) (if snd (server q) =? "" then [] else [snd (server q)]).
  (** parser.py:331-356 as called in client.py:128, 158: all magnitudes are included *)
  Definition parse_response (iq : bool) (body : string) : answer := parse_quakeml_file cut to_float to_time set_order true iq body.
  (** client.py:154-160: the loop over the batches; an exception ends it *)
  Fixpoint read_pages (iq : bool) (qs : list params) : answer * list params :=
    match qs with
    | [] => (Records [], [])
    | q :: t =>
        match parse_response iq (snd (server q)) with
        | Records batch => match read_pages iq t with
                           | (Records rest, log) => (Records (app batch rest), q :: log)
                           | (x, log) => (x, q :: log)
                           end
        | x => (x, [q])
        end
    end.
  (** client.py:98-131 [get_events] (before Catalog.from_dict), 147-160 [_get_events_batched]: the
      records or the exception, and the requests sent *)
  Definition get_events_text (fuel : nat) (iq : bool) (a : args T D) : option (answer * list params) :=
    let p := build_params strftime a in
    match a_batch a with
    | None => Some (parse_response iq (snd (server p)), [p])
    | Some bs =>
        match batch_count probe_view fuel p bs with
        | None => None
        | Some (n, log) => let '(x, log') := read_pages iq (batch_params p bs n) in Some (x, app log log')
        end
    end.
End ClientText.
