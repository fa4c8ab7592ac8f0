(** * What a user expects of Catalog and ForecastCatalog objects, without the code's helpers *)
From Coq Require Import List Bool String Ascii.
From Verif Require Import Catalog_model.
Import ListNotations.
Open Scope string_scope.

(** ** Class *)
(** the class that fits a set of columns *)
Definition fits (columns : list string) (k : cls) : Prop :=
  match k with
  | PlainFrame => ~ In "magnitude" columns
  | IsCatalog => In "magnitude" columns /\ ~ In "catalog_id" columns
  | IsForecast => In "magnitude" columns /\ In "catalog_id" columns
  end.

(** ** Histories: what can be done with an object, one thing after the other *)
Inductive event (V : Type) :=
| Derive (columns : list string)            (* an operation that returns a new object, which is used from now on *)
| MergeConcat (columns : list string)       (* the same, as the left object of merge or the first of concat *)
| InPlace (columns : list string)           (* columns are added or removed in place *)
| Assign (name : string) (v : option V).    (* an attribute is assigned *)
Arguments Derive {V}. Arguments MergeConcat {V}. Arguments InPlace {V}. Arguments Assign {V}.
Definition happens {V} (f : frame V) (e : event V) : frame V :=
  match e with
  | Derive c => operation f c
  | MergeConcat c => merge_concat f c
  | InPlace c => set_columns f c
  | Assign n v => set_attribute f n v
  end.
Definition history {V} (f : frame V) (h : list (event V)) : frame V := fold_left happens h f.
(** columns of a new object returned by the event *)
Definition returned {V} (e : event V) : option (list string) :=
  match e with Derive c | MergeConcat c => Some c | _ => None end.
(** every new object along the history has the column [c] *)
Definition keeps {V} (c : string) (h : list (event V)) : Prop :=
  forall e cols, In e h -> returned e = Some cols -> In c cols.
(** the last value assigned to an attribute, or the first one *)
Fixpoint last_assigned {V} (name : string) (h : list (event V)) (v : option V) : option V :=
  match h with
  | [] => v
  | Assign n w :: t => if (n =? name)%string then last_assigned name t w else last_assigned name t v
  | _ :: t => last_assigned name t v
  end.
(** the last columns *)
Fixpoint last_columns {V} (h : list (event V)) (c : list string) : list string :=
  match h with
  | [] => c
  | Derive d :: t | MergeConcat d :: t | InPlace d :: t => last_columns t d
  | _ :: t => last_columns t c
  end.
Definition attribute_names := ["name"; "mc"; "a_value"; "delta_m"; "b_value"; "starttime"; "endtime"; "bounding_polygon"; "depth_min"; "depth_max"].

(** ** Column names *)
(** the name ends with one of the endings (a newline may follow) *)
Definition ends_in (endings : list string) (c : string) : Prop :=
  exists p e, In e endings /\ (c = p ++ e \/ c = p ++ e ++ String (ascii_of_nat 10) "").
(** [l'] lists the elements of [l] with property [P], in the order of [l] *)
Inductive selected {A} (P : A -> Prop) : list A -> list A -> Prop :=
| sel_nil : selected P [] []
| sel_take x l l' : P x -> selected P l l' -> selected P (x :: l) (x :: l')
| sel_drop x l l' : ~ P x -> selected P l l' -> selected P (x :: l) l'.

(** ** Methods *)
From Verif Require Import Base Num Dict.
Section Changes.
  Context {T : Type}.
  (** the explicit value if there is one, else the stored one *)
  Definition explicit_or {A} (x stored : option A) : option A := match x with Some v => Some v | None => stored end.
  (** [c'] is [c] with other magnitudes and another binning *)
  Definition rebinned (c : catalog T) (mags : list T) (d : dec) (c' : catalog T) : Prop :=
    (forall k, dget (c_cols c') k = if (k =? "magnitude")%string then Some mags else dget (c_cols c) k) /\
    map fst (c_cols c') = map fst (c_cols c) /\
    c_delta c' = Some d /\ c_mc c' = c_mc c /\ c_b c' = c_b c /\ c_a c' = c_a c.
  Definition same_but_mc (c c' : catalog T) : Prop := c_cols c' = c_cols c /\ c_delta c' = c_delta c /\ c_b c' = c_b c /\ c_a c' = c_a c.
  Definition same_but_b (c c' : catalog T) : Prop := c_cols c' = c_cols c /\ c_delta c' = c_delta c /\ c_mc c' = c_mc c /\ c_a c' = c_a c.
  Definition same_but_a (c c' : catalog T) : Prop := c_cols c' = c_cols c /\ c_delta c' = c_delta c /\ c_mc c' = c_mc c /\ c_b c' = c_b c.
End Changes.
