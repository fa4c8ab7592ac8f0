(** * Columns of catalogues converted from and to OpenQuake (C162) *)
From Coq Require Import ZArith List Bool String Lia.
From Verif Require Import Base Utils_model Openquake_model.
Import ListNotations.

Definition required : list string := ["longitude"; "latitude"; "depth"; "time"; "magnitude"]%string.
Definition time_units : list string := ["year"; "month"; "day"; "hour"; "minute"; "second"]%string.

Lemma mem_iff c l : mem c l = true <-> In c l.
Proof.
  unfold mem. rewrite existsb_exists. split.
  - intros (x & Hx & E). apply String.eqb_eq in E. subst. exact Hx.
  - intros H. exists c. split; [exact H|apply String.eqb_refl].
Qed.
Lemma In_add x c l : In x (add c l) <-> In x l \/ x = c.
Proof.
  unfold add. destruct (mem c l) eqn:E.
  - apply mem_iff in E. split; [tauto|]. intros [H| ->]; assumption.
  - rewrite in_app_iff. cbn. split; intros [H|H]; auto. destruct H as [->|[]]; auto.
Qed.
Lemma In_fold x cs l : In x (fold_left (fun l c => add c l) cs l) <-> In x l \/ In x cs.
Proof.
  revert l. induction cs as [|c cs IH]; intros l; cbn [fold_left]; [cbn; tauto|]. rewrite IH, In_add. cbn. intuition auto.
Qed.
Lemma NoDup_add c l : NoDup l -> NoDup (add c l).
Proof.
  intros H. unfold add. destruct (mem c l) eqn:E; [exact H|].
  assert (N : ~ In c l) by (intros X; apply mem_iff in X; congruence).
  apply NoDup_rev in H. rewrite <- (rev_involutive (l ++ [c])). apply NoDup_rev. rewrite rev_app_distr. cbn. constructor; [|exact H].
  intros X. apply N. apply in_rev. exact X.
Qed.

(** to OpenQuake: every column is kept, eventID and the units of time are added *)
Theorem C162_exported_columns rows columns : (0 < rows)%nat -> incl required columns ->
  exists out, oq_columns rows columns = Ok out /\ (forall c, In c out <-> In c columns \/ c = "eventID"%string \/ In c time_units \/ c = "microsecond"%string).
Proof.
  intros Hr Hi. unfold oq_columns.
  assert (E : check_required_cols columns required = true). { unfold check_required_cols. apply forallb_forall. intros c Hc. apply mem_iff, Hi, Hc. }
  change ["longitude"; "latitude"; "depth"; "time"; "magnitude"]%string with required. rewrite E.
  destruct (Nat.eqb_spec rows 0); [lia|]. eexists. split; [reflexivity|]. intros c. rewrite In_fold, In_add.
  unfold time_units, pd_time_cols. cbn [In]. intuition auto.
Qed.
Theorem C162_exported_without_required_columns rows columns : ~ incl required columns -> oq_columns rows columns = Err AttributeError.
Proof.
  intros H. unfold oq_columns. change ["longitude"; "latitude"; "depth"; "time"; "magnitude"]%string with required.
  destruct (check_required_cols columns required) eqn:E; [|reflexivity]. elim H. intros c Hc. unfold check_required_cols in E. rewrite forallb_forall in E. apply mem_iff, E, Hc.
Qed.
Theorem C162_exported_empty columns : incl required columns -> oq_columns 0 columns = Ok [].
Proof.
  intros Hi. unfold oq_columns. change ["longitude"; "latitude"; "depth"; "time"; "magnitude"]%string with required.
  assert (E : check_required_cols columns required = true). { unfold check_required_cols. apply forallb_forall. intros c Hc. apply mem_iff, Hi, Hc. }
  rewrite E. reflexivity.
Qed.

(** from OpenQuake *)
Lemma max_of l n : (forall x, In x l -> x = 0 \/ x = n)%nat -> In n l -> fold_right Nat.max O l = n.
Proof.
  intros H Hn. assert (U : (fold_right Nat.max O l <= n)%nat).
  { clear Hn. induction l as [|x l IH]; cbn [fold_right]; [lia|]. assert (x = 0 \/ x = n)%nat by (apply H; left; reflexivity).
    assert (fold_right Nat.max O l <= n)%nat by (apply IH; intros y Hy; apply H; right; exact Hy). lia. }
  assert (L : (n <= fold_right Nat.max O l)%nat).
  { clear H U. induction l as [|x l IH]; [elim Hn|]. cbn [fold_right]. destruct Hn as [->|Hn]; [lia|]. specialize (IH Hn). lia. }
  lia.
Qed.
(** columns without values are left out; the units of time are replaced by time *)
Theorem C162_imported_columns keep data n : (0 < n)%nat -> (forall c m, In (c, m) data -> m = 0 \/ m = n)%nat ->
  (forall c, In c time_units -> In (c, n) data) ->
  exists out, from_columns keep data = Ok out /\
    (keep = false -> forall c, In c out <-> (In (c, n) data /\ ~ In c time_units /\ c <> "microsecond"%string) \/ c = "time"%string) /\
    (keep = true -> forall c, In c out <-> In (c, n) data \/ c = "microsecond"%string \/ c = "time"%string).
Proof.
  intros Hn Hl Ht. unfold from_columns.
  assert (M : fold_right Nat.max O (map snd data) = n).
  { apply max_of.
    - intros x Hx. apply in_map_iff in Hx as ([c m] & <- & Hx). apply (Hl c m Hx).
    - apply in_map_iff. exists ("year"%string, n). split; [reflexivity|]. apply Ht. left. reflexivity. }
  rewrite M. destruct (Nat.eqb_spec n 0); [lia|]. cbv zeta.
  set (kept := filter _ data).
  assert (K : forall c m, In (c, m) kept <-> In (c, m) data /\ m = n).
  { intros c m. unfold kept. rewrite filter_In. cbn [snd]. split.
    - intros [H Hm]. split; [exact H|]. destruct (Hl c m H) as [->|E]; [discriminate|exact E].
    - intros [H ->]. split; [exact H|]. destruct (Nat.eqb_spec n 0); [lia|reflexivity]. }
  assert (N : forall c, In c (map fst kept) <-> In (c, n) data).
  { intros c. rewrite in_map_iff. split.
    - intros ([c' m] & <- & H). cbn [fst]. apply K in H as [H ->]. exact H.
    - intros H. exists (c, n). split; [reflexivity|]. apply K. auto. }
  assert (F : forallb (fun p : string * nat => (snd p =? n)%nat) kept = true).
  { apply forallb_forall. intros [c m] H. apply K in H as [_ ->]. apply Nat.eqb_refl. }
  rewrite F. cbn [negb].
  assert (G : forallb (fun c => mem c (map fst kept)) ["year"; "month"; "day"; "hour"; "minute"; "second"]%string = true).
  { apply forallb_forall. intros c Hc. apply mem_iff, N, Ht. exact Hc. }
  rewrite G. cbn [negb]. eexists. split; [reflexivity|]. split; intros ->; intros c.
  - rewrite filter_In, !In_add, N.
    assert (P : negb (mem c pd_time_cols) = true <-> ~ In c time_units /\ c <> "microsecond"%string).
    { rewrite negb_true_iff. split.
      - intros H. assert (X : ~ In c pd_time_cols) by (intros Y; apply mem_iff in Y; congruence).
        unfold pd_time_cols, time_units in *. cbn [In] in *. split; intros Z; apply X; intuition auto.
      - intros [A B]. destruct (mem c pd_time_cols) eqn:E; [|reflexivity]. apply mem_iff in E.
        unfold pd_time_cols, time_units in *. cbn [In] in *. exfalso. intuition auto. }
    rewrite P. split.
    + intros [[[H|H]|H] [A B]]; auto. contradiction.
    + intros [(A & B & C)| ->]; [auto|]. split; [right; reflexivity|]. split; [cbn; intuition discriminate|discriminate].
  - rewrite !In_add, N. tauto.
Qed.
Theorem C162_imported_lengths keep data c m c' m' : In (c, m) data -> In (c', m') data -> m <> m' -> (0 < m)%nat -> (0 < m')%nat ->
  from_columns keep data = Err ValueError.
Proof.
  intros H H' D P P'. unfold from_columns. set (n := fold_right Nat.max O (map snd data)).
  assert (B : (m <= n /\ m' <= n)%nat).
  { assert (X : forall c m, In (c, m) data -> (m <= n)%nat).
    { unfold n. clear. induction data as [|[d k] data IH]; intros c m; [intros []|]. cbn [map snd fold_right]. intros [E|Hx]; [injection E as -> ->; lia|]. specialize (IH c m Hx). lia. }
    split; eapply X; eassumption. }
  destruct (Nat.eqb_spec n 0); [lia|]. cbv zeta.
  destruct (forallb _ (filter _ data)) eqn:E; [|reflexivity]. exfalso. rewrite forallb_forall in E.
  assert (Y : forall c m, In (c, m) data -> (0 < m)%nat -> m = n).
  { intros a k Ha Hk. specialize (E (a, k)). cbn [snd] in E. apply Nat.eqb_eq. apply E. apply filter_In. cbn [snd]. split; [exact Ha|]. destruct (Nat.eqb_spec k 0); [lia|reflexivity]. }
  apply D. rewrite (Y c m H P), (Y c' m' H' P'). reflexivity.
Qed.
Theorem C162_imported_without_time keep data n u : (0 < n)%nat -> (forall c m, In (c, m) data -> m = 0 \/ m = n)%nat -> (exists c, In (c, n) data) ->
  In u time_units -> ~ In (u, n) data -> from_columns keep data = Err KeyError.
Proof.
  intros Hn Hl [c0 H0] Hu Hno. unfold from_columns.
  assert (M : fold_right Nat.max O (map snd data) = n).
  { apply max_of.
    - intros x Hx. apply in_map_iff in Hx as ([c m] & <- & Hx). apply (Hl c m Hx).
    - apply in_map_iff. exists (c0, n). split; [reflexivity|]. exact H0. }
  rewrite M. destruct (Nat.eqb_spec n 0); [lia|]. cbv zeta.
  set (kept := filter _ data).
  assert (K : forall c m, In (c, m) kept -> In (c, m) data /\ m = n).
  { intros c m. unfold kept. rewrite filter_In. cbn [snd]. intros [H Hm]. split; [exact H|]. destruct (Hl c m H) as [->|E]; [discriminate|exact E]. }
  assert (F : forallb (fun p : string * nat => (snd p =? n)%nat) kept = true).
  { apply forallb_forall. intros [c m] H. apply K in H as [_ ->]. apply Nat.eqb_refl. }
  rewrite F. cbn [negb]. destruct (forallb (fun c => mem c (map fst kept)) ["year"; "month"; "day"; "hour"; "minute"; "second"]%string) eqn:G; [|reflexivity]. exfalso. rewrite forallb_forall in G. specialize (G u Hu).
  apply mem_iff, in_map_iff in G as ([c m] & E & H). cbn [fst] in E. subst c. apply K in H as [H ->]. contradiction.
Qed.
Theorem C162_imported_empty keep data : (forall c m, In (c, m) data -> m = 0%nat) -> from_columns keep data = Ok catalog_columns.
Proof.
  intros H. unfold from_columns.
  assert (E : fold_right Nat.max O (map snd data) = O).
  { induction data as [|[c m] data IH]; [reflexivity|]. cbn [map snd fold_right]. rewrite IH by (intros a k Hk; apply (H a k); right; exact Hk). rewrite (H c m) by (left; reflexivity). reflexivity. }
  rewrite E. reflexivity.
Qed.
(** there and back: the same columns, and eventID *)
Theorem C162_columns_come_back rows columns : (0 < rows)%nat -> incl required columns ->
  (forall c, In c columns -> ~ In c time_units /\ c <> "microsecond"%string) ->
  exists out back, oq_columns rows columns = Ok out /\ from_columns false (map (fun c => (c, rows)) out) = Ok back /\
    forall c, In c back <-> In c columns \/ c = "eventID"%string.
Proof.
  intros Hr Hi Hno. destruct (C162_exported_columns rows columns Hr Hi) as (out & E & Hout).
  assert (I : forall c m, In (c, m) (map (fun c => (c, rows)) out) <-> In c out /\ m = rows).
  { intros c m. rewrite in_map_iff. split; [intros (x & Ex & H); injection Ex as -> <-; auto|intros [H ->]; exists c; auto]. }
  destruct (C162_imported_columns false (map (fun c => (c, rows)) out) rows Hr) as (back & Eb & Hb & _).
  - intros c m H. apply I in H as [_ ->]. auto.
  - intros c Hc. apply I. split; [|reflexivity]. apply Hout. auto.
  - exists out, back. split; [exact E|]. split; [exact Eb|]. intros c. rewrite (Hb eq_refl), I, Hout. split.
    + intros [[[[H|[H|[H|H]]] _] [A B]]| ->]; auto; [contradiction|contradiction|left; apply Hi; cbn; auto 10].
    + intros [H| ->].
      * left. destruct (Hno c H) as [A B]. auto.
      * left. split; [auto|]. split; [cbn; intuition discriminate|discriminate].
Qed.
Example C162_case : oq_columns 3 (required ++ ["region"%string]) = Ok ["longitude"; "latitude"; "depth"; "time"; "magnitude"; "region"; "eventID"; "year"; "month"; "day"; "hour"; "minute"; "second"; "microsecond"]%string
  /\ from_columns false (map (fun c => (c, 3%nat)) (["region"; "magnitude"]%string ++ time_units) ++ [("agency"%string, 0%nat)]) = Ok ["region"; "magnitude"; "time"]%string.
Proof. split; reflexivity. Qed.
Print Assumptions C162_exported_columns.
Print Assumptions C162_imported_columns.
Print Assumptions C162_columns_come_back.
Print Assumptions C162_imported_lengths.
