(** * C230: which catalogues are declustered at all: missing magnitudes, Gruenthal's windows *)
From Coq Require Import ZArith List Bool Lia Reals Lra.
From Verif Require Import Base Num XR Decluster_model Spec_Decluster Props_Decluster Props_Sphere Props_Windows Props_Decluster2.
Import ListNotations.
Open Scope R_scope.

(** a catalogue with n events and the default index; the magnitude may be missing *)
Definition number (o : option R) : xr := match o with Some m => Fin m | None => NaN end.
Definition catalogue_m (n : nat) (time : nat -> R) (mag : nat -> option R) (lon lat : nat -> R) : list (event xr) :=
  map (fun i => mkev (Z.of_nat i) (Fin (time i)) (number (mag i)) (Fin (lon i)) (Fin (lat i))) (seq 0 n).
(** the magnitudes for which there is a time window *)
Definition has_window (k : window_kind) (o : option R) : Prop := exists m, o = Some m /\ (k = Gruenthal -> -0.62 / 17.32 <= m).

(** a single time window that is NaN: no event is declustered, whatever the labels, the other
    events, the distance and fs_time_prop *)
Theorem C230_no_window : forall dist window fs (evs : list (event xr)),
  In NaN (snd (window (map e_mag evs))) -> decluster dist window fs evs = Err ValueError.
Proof.
  intros dist window fs evs H. unfold decluster. destruct (window (map e_mag evs)) as [sws tws]. cbn [snd] in H. unfold durations.
  replace (existsb nisnan tws) with true by (symmetry; apply existsb_exists; exists NaN; split; [exact H|reflexivity]). reflexivity.
Qed.
Print Assumptions C230_no_window.

Lemma clip_nan c : clip NaN (Fin 0) c = NaN.
Proof. destruct c; reflexivity. Qed.
Lemma cut_nan cutoff : cut_time cutoff (NaN : xr) = NaN.
Proof.
  destruct cutoff as [c|]; [|reflexivity]. unfold cut_time. destruct (neqb c _); [reflexivity|]. apply clip_nan.
Qed.
Lemma window_nan k o : ~ has_window k o -> time_window k (number o) = NaN.
Proof.
  intros H. destruct o as [m|].
  - destruct k; [exfalso; apply H; exists m; split; [reflexivity|discriminate]| |exfalso; apply H; exists m; split; [reflexivity|discriminate]].
    assert (L : m < -0.62 / 17.32) by (apply Rnot_le_lt; intros L; apply H; exists m; auto). cbn [number]. unfold time_window. rewrite !x_lit, !x_mul, !x_add, x_leb.
    rewrite (proj2 (rle_false _ _)) by (cbn; lra).
    assert (S : forall r, r < 0 -> nsqrt (Fin r) = NaN). { intros r Hr. cbn. destruct (Rlt_dec r 0); [reflexivity|lra]. }
    rewrite S by (cbn; lra). reflexivity.
  - cbn [number]. destruct k; unfold time_window; rewrite ?x_lit; try reflexivity; cbn; destruct (rlt _ _) eqn:E0; reflexivity.
Qed.
Lemma has_window_dec k o : has_window k o \/ ~ has_window k o.
Proof.
  destruct o as [m|]; [|right; intros (m & E & _); discriminate]. destruct (Rle_dec (-0.62 / 17.32) m) as [L|L]; [left; exists m; auto|].
  destruct k; [left; exists m; split; [reflexivity|discriminate]| |left; exists m; split; [reflexivity|discriminate]].
  right. intros (m' & [= <-] & F). exact (L (F eq_refl)).
Qed.
(** With the windows of the package, any cutoff and any index: one event without a magnitude
    (or, with Gruenthal's windows, with a magnitude below -0.62/17.32) and nothing is
    declustered: ValueError. *)
Theorem C230_refused : forall dist k cutoff fs (evs : list (event xr)) e o,
  In e evs -> e_mag e = number o -> ~ has_window k o ->
  decluster dist (windows k cutoff) fs evs = Err ValueError.
Proof.
  intros dist k cutoff fs evs e o Hin He Hw. apply C230_no_window. unfold windows. cbn [snd]. rewrite map_map. apply in_map_iff. exists e. split; [|exact Hin].
  rewrite He, (window_nan k o Hw), cut_nan. reflexivity.
Qed.
Print Assumptions C230_refused.
(** With the default index and a cutoff that is absent or positive these are the only refusals:
    a catalogue is declustered if and only if every event has a window, and then as Gardner and
    Knopoff do it. *)
Theorem C230_declustered : forall n time mag lon lat fs k cutoff,
  0 <= fs -> (forall c, cutoff = Some c -> 0 < c) ->
  let out := decluster haversine (windows k (option_map Fin cutoff)) (Fin fs) (catalogue_m n time mag lon lat) in
  (forall i, (i < n)%nat -> has_window k (mag i)) /\
    (exists flag cluster m, (forall i, (i < n)%nat -> mag i = Some (m i)) /\
      let cov := covers distance time lon lat (fun i => sw k (m i)) (fun i => time_limit k cutoff (m i)) fs in
      out = Ok (map flag (seq 0 n), map cluster (seq 0 n)) /\
      gk_flags n (earlier m time) cov (fun i => flag i = true) /\
      gk_clusters n (earlier m time) cov (fun i => flag i = true) cluster)
  \/ (exists i, (i < n)%nat /\ ~ has_window k (mag i)) /\ out = Err ValueError.
Proof.
  intros n time mag lon lat fs k cutoff Hfs Hc out.
  assert (D : (forall i, (i < n)%nat -> has_window k (mag i)) \/ exists i, (i < n)%nat /\ ~ has_window k (mag i)).
  { clear. induction n as [|n IH]; [left; intros; lia|]. destruct IH as [IH|(i & Hi & IH)]; [|right; exists i; split; [lia|exact IH]].
    destruct (has_window_dec k (mag n)) as [H|H]; [left; intros i Hi; destruct (Nat.eq_dec i n) as [->|]; [exact H|apply IH; lia]|right; exists n; split; [lia|exact H]]. }
  destruct D as [D|(i & Hi & D)]; [left|right].
  - split; [exact D|]. set (m := fun i => match mag i with Some x => x | None => 0 end).
    assert (Em : forall i, (i < n)%nat -> mag i = Some (m i)). { intros i Hi. destruct (D i Hi) as (x & E & _). unfold m. rewrite E. reflexivity. }
    destruct (C47_package_windows n time m lon lat fs k cutoff Hfs) as (f & c & E & F & G); [|exact Hc|].
    + intros i Hi. destruct (D i Hi) as (x & Ex & Hx). pose proof (Em i Hi) as E. rewrite Ex in E. injection E as ->. destruct k; cbn; auto.
    + exists f, c, m. split; [exact Em|]. cbv zeta. split; [|split; assumption]. unfold out. rewrite <- E. f_equal. unfold catalogue_m, catalogue. apply map_ext_in. intros i Hi. apply in_seq in Hi. rewrite (Em i ltac:(lia)). reflexivity.
  - split; [exists i; split; assumption|]. unfold out.
    apply (C230_refused haversine k (option_map Fin cutoff) (Fin fs) _ (mkev (Z.of_nat i) (Fin (time i)) (number (mag i)) (Fin (lon i)) (Fin (lat i))) (mag i)); [|reflexivity|exact D].
    unfold catalogue_m. apply in_map_iff. exists i. split; [reflexivity|]. apply in_seq. lia.
Qed.
Print Assumptions C230_declustered.

(** concrete cases: three events, the second without a magnitude; and with all magnitudes *)
Example C230_case_missing : decluster haversine (windows Uhrhammer None) (Fin 1) (catalogue_m 3 (fun i => INR i) (fun i => if (i =? 1)%nat then None else Some (INR i)) (fun _ => 8) (fun _ => 47)) = Err ValueError.
Proof.
  apply (C230_refused haversine Uhrhammer None (Fin 1) _ (mkev 1 (Fin 1) NaN (Fin 8) (Fin 47)) None); [|reflexivity|intros (m & E & _); discriminate].
  unfold catalogue_m. apply in_map_iff. exists 1%nat. split; [|apply in_seq; lia]. cbn. reflexivity.
Qed.
Example C230_case_small : decluster haversine (windows Gruenthal None) (Fin 1) (catalogue_m 1 (fun _ => 0) (fun _ => Some (-0.1)) (fun _ => 8) (fun _ => 47)) = Err ValueError.
Proof.
  destruct (C230_declustered 1 (fun _ => 0) (fun _ => Some (-0.1)) (fun _ => 8) (fun _ => 47) 1 Gruenthal None ltac:(lra) ltac:(discriminate)) as [[H _]|[_ E]]; [|exact E].
  destruct (H 0%nat ltac:(lia)) as (m & [= <-] & F). specialize (F eq_refl). lra.
Qed.
Example C230_case_answer : exists r, decluster haversine (windows Gruenthal None) (Fin 1) (catalogue_m 2 (fun i => INR i) (fun i => Some (INR i)) (fun _ => 8) (fun _ => 47)) = Ok r.
Proof.
  destruct (C230_declustered 2 (fun i => INR i) (fun i => Some (INR i)) (fun _ => 8) (fun _ => 47) 1 Gruenthal None ltac:(lra) ltac:(discriminate)) as [[_ (f & c & m & _ & E & _)]|[(i & _ & H) _]]; [eexists; exact E|].
  exfalso. apply H. exists (INR i). split; [reflexivity|]. intros _. pose proof (pos_INR i). lra.
Qed.
