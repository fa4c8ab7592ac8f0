(** * Exporting and reading back (no reference to the exporter or the parser) *)
From Coq Require Import List Bool String Ascii.
From Verif Require Import Dict.
Import ListNotations.
Open Scope string_scope.

(** a cell of the table: a missing number, None, or a value with its text *)
Inductive val := VNan | VNone | Val (s : string).
Definition known (v : option val) : Prop := exists s, v = Some (Val s).
(** the text of a cell; a missing number is left out or written as nan *)
Definition shown (v : option val) : option string := match v with Some (Val s) => Some s | Some VNone => Some "None" | _ => None end.
Definition written (v : option val) : option string := match v with Some (Val s) => Some s | Some VNone => Some "None" | Some VNan => Some "nan" | None => None end.

Definition occurs (sub s : string) : Prop := exists a b, s = a ++ sub ++ b.
Fixpoint without_underscore (s : string) : Prop := match s with "" => True | String c t => c <> "_"%char /\ without_underscore t end.
Definition starts (sub s : string) : Prop := exists b, s = sub ++ b.

(** columns for the details of the preferred magnitude *)
Definition details := ["magnitude_uncertainty"; "magnitude_lowerUncertainty"; "magnitude_upperUncertainty"; "magnitude_confidenceLevel"; "magnitude_type"].
Definition secondary_column (c : string) : Prop := occurs "magnitude_" c /\ forall d, In d details -> ~ occurs d c.
(** the parts of the name of such a column, after magnitude_<type> *)
Definition endings := [""; "_uncertainty"; "_lowerUncertainty"; "_upperUncertainty"; "_confidenceLevel"; "_magnitudeID"].
(** magnitude types that cannot be mistaken for something else *)
Definition ordinary (T : string) : Prop :=
  T <> "" /\ without_underscore T /\ ~ In T ["type"; "uncertainty"; "lowerUncertainty"; "upperUncertainty"; "confidenceLevel"] /\
  forall e, In e endings -> ~ starts ("_" ++ T) e.

(** ** What a record read back says about the row it was made from *)
Definition number_columns := ["longitude"; "latitude"; "depth"; "magnitude"; "longitude_uncertainty"; "latitude_uncertainty"; "depth_uncertainty"; "magnitude_uncertainty"].
Definition count_columns := ["associatedphasecount"; "usedphasecount"; "associatedstationcount"; "usedstationcount"; "depthphasecount"].
Definition measure_columns := ["standarderror"; "azimuthalgap"; "secondaryazimuthalgap"; "maximumdistance"; "minimumdistance"; "mediandistance"].
Definition id_columns := ["eventID"; "originID"; "magnitudeID"].
(** a secondary column whose cell is known, in a row whose magnitude type is known and does not
    occur in the name of the column *)
Definition survives (columns : list string) (row : dict val) (c : string) : Prop :=
  In c columns /\ secondary_column c /\ known (dget row c) /\ exists t, dget row "magnitude_type" = Some (Val t) /\ ~ occurs t c.
(** [int_text]: the text of a value converted to an integer *)
Record comes_back (int_text : string -> string) (quality : bool) (columns : list string) (row : dict val) (r : dict (option string)) : Prop := {
  back_numbers : forall c, In c number_columns -> dget r c = option_map Some (shown (dget row c));
  back_time : dget r "time" = option_map Some (written (dget row "time"));
  back_mode : dget r "evaluationmode" = option_map Some (written (dget row "evaluationmode"));
  back_type : dget r "magnitude_type" = option_map Some (written (dget row "magnitude_type"));
  back_event_type : dget r "event_type" = Some (written (dget row "event_type"));
  back_ids : forall c, In c id_columns -> (In c columns -> dget r c = option_map Some (written (dget row c))) /\ (~ In c columns -> exists s, s <> "" /\ dget r c = Some (Some s));
  back_measures : forall c, In c measure_columns -> dget r c = if quality then option_map Some (shown (dget row c)) else None;
  back_counts : forall c, In c count_columns -> dget r c = if quality
    then match dget row c with Some (Val s) => Some (Some (int_text s)) | Some VNone => Some (Some "0") | _ => None end else None;
  back_own : forall T e, written (dget row "magnitude_type") = Some T -> In e [""; "_uncertainty"] -> dget r ("magnitude_" ++ T ++ e) = dget r ("magnitude" ++ e);
  back_secondary : forall T e, ordinary T -> written (dget row "magnitude_type") <> Some T -> In e [""; "_uncertainty"] ->
    (survives columns row ("magnitude_" ++ T ++ e) -> dget r ("magnitude_" ++ T ++ e) = option_map Some (shown (dget row ("magnitude_" ++ T ++ e)))) /\
    (~ survives columns row ("magnitude_" ++ T ++ e) -> dget r ("magnitude_" ++ T ++ e) = None);
  back_secondary_ids : forall T, ordinary T -> written (dget row "magnitude_type") <> Some T ->
    let id := ("magnitude_" ++ T ++ "_magnitudeID")%string in
    (survives columns row id -> dget r id = option_map Some (shown (dget row id))) /\
    (~ survives columns row id -> (exists e, In e endings /\ survives columns row ("magnitude_" ++ T ++ e)) -> dget r id = Some (Some "")) /\
    ((forall e, In e endings -> ~ survives columns row ("magnitude_" ++ T ++ e)) -> dget r id = None);
  back_lost : forall v e, In v ["time"; "longitude"; "latitude"; "depth"; "magnitude"] -> In e ["_lowerUncertainty"; "_upperUncertainty"; "_confidenceLevel"] -> dget r (v ++ e) = None;
  back_lost_time : dget r "time_uncertainty" = None;
  back_lost_secondary : forall T e, ordinary T -> In e ["_lowerUncertainty"; "_upperUncertainty"; "_confidenceLevel"] -> dget r ("magnitude_" ++ T ++ e) = None
}.
