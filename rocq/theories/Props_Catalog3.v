(** * C141, continued: the other plots through the catalogue *)
From Coq Require Import ZArith List Bool String Reals.
From Verif Require Import Base Num StateM XR Dict Binning_model BValue_model AValue_model Mc_model Plots_model Utils_model Catalog_model Spec_Catalog CatalogPlots_model.
Import ListNotations.
Open Scope string_scope.

Section Plots.
  Context {T : Type} {N : Num T}.
  Theorem C141_plot_in_space current s l p (c : catalog T) lats lons mags :
    dget (c_cols c) "latitude" = Some lats -> dget (c_cols c) "longitude" = Some lons -> dget (c_cols c) "magnitude" = Some mags ->
    cat_plot_in_space current s l p c = (c, plot_in_space current lons lats mags s l p).
  Proof. intros H1 H2 H3. unfold cat_plot_in_space. rewrite H1, H2, H3. reflexivity. Qed.
  Theorem C141_plot_mags_in_time jan1 s l p (c : catalog T) lists ts mags : dget (c_cols c) "time" = Some ts -> dget (c_cols c) "magnitude" = Some mags ->
    fst (fst (cat_plot_mags_in_time jan1 s l p (c, lists))) = c /\
    (snd (fst (cat_plot_mags_in_time jan1 s l p (c, lists))), snd (cat_plot_mags_in_time jan1 s l p (c, lists))) = plot_mags_in_time jan1 ts mags s l p lists.
  Proof. intros H1 H2. unfold cat_plot_mags_in_time. rewrite H1, H2. destruct (plot_mags_in_time _ _ _ _ _ _ _) as [l' r]. split; reflexivity. Qed.
  Theorem C141_plot_mc_vs_b srt ppf k wn draws mcs delta kw confidence (c : catalog T) mags : dget (c_cols c) "magnitude" = Some mags ->
    (forall d, explicit_or delta (c_delta c) = Some d -> cat_plot_mc_vs_b srt ppf k wn draws mcs delta kw confidence c = (c, plot_mc_vs_b srt ppf k wn draws mags mcs d kw confidence)) /\
    (explicit_or delta (c_delta c) = None -> fst (cat_plot_mc_vs_b srt ppf k wn draws mcs delta kw confidence c) = c /\
       (mcs <> [] -> exists e, snd (cat_plot_mc_vs_b srt ppf k wn draws mcs delta kw confidence c) = Err e)).
  Proof.
    intros H. unfold cat_plot_mc_vs_b, with_magnitude. rewrite H. split.
    - intros d Hd. destruct delta; cbn [explicit_or] in Hd; rewrite ?Hd; [injection Hd as ->|]; reflexivity.
    - intros Hd. destruct delta; [discriminate|]. cbn [explicit_or] in Hd. rewrite Hd. split; [reflexivity|]. destruct mcs; [contradiction|]. intros _. eexists. reflexivity.
  Qed.
  (** a missing column is reported *)
  Theorem C141_more_columns current s l p jan1 lists srt ppf k wn draws mcs delta kw confidence (c : catalog T) :
    (dget (c_cols c) "magnitude" = None -> cat_plot_in_space current s l p c = (c, Err AttributeError) /\
       cat_plot_mags_in_time jan1 s l p (c, lists) = ((c, lists), Err AttributeError) /\ cat_plot_mc_vs_b srt ppf k wn draws mcs delta kw confidence c = (c, Err AttributeError)) /\
    (dget (c_cols c) "time" = None -> cat_plot_mags_in_time jan1 s l p (c, lists) = ((c, lists), Err AttributeError)) /\
    (dget (c_cols c) "latitude" = None \/ dget (c_cols c) "longitude" = None -> cat_plot_in_space current s l p c = (c, Err AttributeError)).
  Proof.
    unfold cat_plot_in_space, cat_plot_mags_in_time, cat_plot_mc_vs_b, with_magnitude. split; [|split].
    - intros ->. destruct (dget (c_cols c) "latitude"), (dget (c_cols c) "longitude"), (dget (c_cols c) "time"); repeat split.
    - intros ->. reflexivity.
    - intros [-> | ->]; [reflexivity|]. destruct (dget (c_cols c) "latitude"); reflexivity.
  Qed.
End Plots.
Example C141_sample : let c := mkcat [("magnitude", [Fin 1%R; Fin 2%R]); ("latitude", [Fin 47%R; Fin 46%R]); ("longitude", [Fin 8%R; Fin 9%R])] None None None None in
  dget (c_cols c) "time" = None /\ cat_plot_mc_vs_b (fun l => seq 0 (List.length l)) (fun x => x) Classic true (fun _ => []) [Fin 1%R] None (mkbkw None None None) (Fin 0%R) c = (c, Err (without_delta Classic [Fin 1%R; Fin 2%R] (mkbkw None None None))).
Proof. split; reflexivity. Qed.
Print Assumptions C141_plot_in_space.
Print Assumptions C141_plot_mags_in_time.
Print Assumptions C141_plot_mc_vs_b.
Print Assumptions C141_more_columns.
