(** * From the table of a catalogue to the methods that estimate: catalogs/catalog.py:486-1071

    The columns of numbers as the arrays that the estimators get. *)
From Coq Require Import ZArith List Bool String.
From Verif Require Import Base Num Dict Utils_model QuakeML_model Catalog_model Table_model.
Import ListNotations.

Section Workflow.
  Context {T : Type} {N : Num T}.
  (** an entry of a numeric column as numpy's arithmetic takes it: an integer (int64) becomes a double
      in the first operation with a float, a missing value is NaN.  catalog.py:937-944 (numpy) *)
  Definition number_of (e : entry T) : T := match e with EFloat x => x | EInt z => ofZ z | _ => nnan end.
  (** the numeric columns (catalog.py:173-178).  The other columns hold texts and times; the methods
      below would only look at them if they had the names weight, times or dmc. *)
  Definition numeric_frame (t : table T) : dict (list T) :=
    map (fun cl => (fst cl, map number_of (snd cl))) (filter (fun cl => mem (fst cl) numeric_cols) (t_cols t)).
  (** a new catalogue has no mc, delta_m, b_value, a_value: catalog.py:155-165 *)
  Definition catalog_of (t : table T) : @catalog T := mkcat (numeric_frame t) None None None None.
End Workflow.
