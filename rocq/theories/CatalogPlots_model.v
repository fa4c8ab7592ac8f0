(** * The other plotting methods of Catalog: catalogs/catalog.py:1073-1148, 1197-1250, 1366-1408 *)
From Coq Require Import ZArith List Bool String.
From Verif Require Import Base Num StateM Dict Binning_model BValue_model AValue_model Mc_model Plots_model Utils_model Catalog_model.
Import ListNotations.
Open Scope string_scope.
Open Scope num_scope.

Section CatalogPlots.
  Context {T : Type} {N : Num T}.
  (** catalog.py:1073-1148 (without a country, see Plots_model.v); [current]: the extent of the axes
      that are given, if any *)
  Definition cat_plot_in_space (current : option (T * T * T * T)) (smallest largest power : T) : SM (catalog T) ((T * T * T * T) * list (T * T * T)) := fun c =>
    match dget (c_cols c) "latitude", dget (c_cols c) "longitude", dget (c_cols c) "magnitude" with
    | Some lats, Some lons, Some mags => (c, plot_in_space current lons lats mags smallest largest power)
    | _, _, _ => (c, Err AttributeError)
    end.
  (** catalog.py:1197-1250; the state holds the two lists of the caller, too *)
  Definition cat_plot_mags_in_time (jan1 : Z -> T) (smallest largest power : T) : SM (catalog T * (option (change_times T) * option (list T))) (@mags_in_time T) := fun cs =>
    let '(c, lists) := cs in
    match dget (c_cols c) "time", dget (c_cols c) "magnitude" with
    | Some times, Some mags => let '(lists', r) := plot_mags_in_time jan1 times mags smallest largest power lists in ((c, lists'), r)
    | _, _ => (cs, Err AttributeError)
    end.
  (** statistical.py:53-55 with delta_m None: base.py:66-72, 99, 112-130, positive.py:88-94, binning.py:141-163, 76:
      the exception that the estimator raises *)
  Definition without_delta (k : kind) (mags : list T) (kw : @bkwargs T) : exn :=
    match k with
    | BPositive | BMorePositive => match bk_dmc kw with Some d => if d <? zero then ValueError else TypeError | None => TypeError end
    | _ => match mags with
           | [] => match bk_weights kw with Some (_ :: _) => IndexError | _ => TypeError end
           | _ => if forallb nisnan mags then ValueError else TypeError
           end
    end.
  (** catalog.py:1366-1408 *)
  Definition cat_plot_mc_vs_b (srt : list T -> list nat) (ppf : T -> T) (k : kind) (wn : bool) (draws : nat -> list (list nat))
             (mcs : list T) (delta : option dec) (kw : @bkwargs T) (confidence : T) : SM (catalog T) (list (T * T * T * T)) :=
    with_magnitude (fun mags c =>
      match (match delta with None => c_delta c | Some d => Some d end) with
      | Some d => (c, plot_mc_vs_b srt ppf k wn draws mags mcs d kw confidence)
      | None => (c, match mcs with [] => Ok [] | _ => Err (without_delta k mags kw) end)
      end).
End CatalogPlots.
