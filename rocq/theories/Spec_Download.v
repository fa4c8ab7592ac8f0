(** * Specification: a web service that answers with QuakeML texts *)
From Coq Require Import ZArith List Bool String.
From Verif Require Import Base Num Dict Client_model Spec_Client Spec_QuakeML Spec_Xml Props_Client.
Import ListNotations.
Open Scope string_scope.

(** [t] is a QuakeML text with exactly the events [evs], in any layout *)
Definition quakeml_text (evs : list event) (t : string) : Prop :=
  exists h d b, heading h /\ blank b /\ doc_ok d /\ (forall ps, d <> DText ps) /\ safe (plain_of_doc d) /\
    docs_events [d] = evs /\ t = h ++ xml (plain_of_doc d) ++ b.
(** the service has a list of events for each selection; it answers a request with a text of the
    requested page of the list, or with an empty body if the page is empty *)
Definition serves {T} (server : dict (pval T) -> Z * string) (all : dict (pval T) -> list event) : Prop :=
  forall p, let evs := page (int_of (dget p "limit")) (int_of (dget p "offset")) (all (without p)) in
    (evs = [] /\ snd (server p) = "") \/ (evs <> [] /\ fst (server p) = 200%Z /\ quakeml_text evs (snd (server p))).
(** [l] is what remains of [m] if some elements are left out *)
Inductive part_of {A} : list A -> list A -> Prop :=
| part_nil : part_of [] []
| part_keep x l m : part_of l m -> part_of (x :: l) (x :: m)
| part_skip x l m : part_of l m -> part_of l (x :: m).
(** the same service, but any body may end too soon *)
Definition interrupted {T} (server server' : dict (pval T) -> Z * string) : Prop :=
  forall p, fst (server' p) = fst (server p) /\ exists rest, snd (server p) = snd (server' p) ++ rest.
