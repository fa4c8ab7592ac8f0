(** * Tables (no reference to how they are made) *)
From Coq Require Import List String.
From Verif Require Import Dict.
Import ListNotations.
Open Scope string_scope.

(** a record: what was read about one event; what it says about something *)
Definition record := dict (option string).
Definition says (r : record) (c s : string) : Prop := dget r c = Some (Some s).
Definition silent (r : record) (c : string) : Prop := dget r c = None \/ dget r c = Some None.
(** the entry of a table in a column and a row *)
Definition at_ {E} (cols : dict (list E)) (c : string) (i : nat) (e : E) : Prop :=
  exists l, dget cols c = Some l /\ nth_error l i = Some e.
(** the columns that hold numbers, and those with texts that may stand for nothing *)
Definition number_names := ["magnitude"; "latitude"; "longitude"; "depth"; "associatedphasecount"; "usedphasecount";
    "associatedstationcount"; "usedstationcount"; "standarderror"; "azimuthalgap"; "secondaryazimuthalgap"; "maximumdistance";
    "minimumdistance"; "mediandistance"].
Definition text_names := ["magnitude_type"; "event_type"].
Definition nothing := [""; "nan"; "NaN"; "none"; "None"; "na"; "Na"; "NA"; "null"; "Null"; "NULL"].
Definition about_uncertainty := ["_uncertainty"; "_lowerUncertainty"; "_upperUncertainty"; "_confidenceLevel"].
Definition about_ids := ["eventID"; "originID"; "magnitudeID"].
(** the elements of a list, each where it first occurs *)
Fixpoint firsts (l : list string) : list string :=
  match l with [] => [] | x :: t => x :: filter (fun y => negb (x =? y)) (firsts t) end.
