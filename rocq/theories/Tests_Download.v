(** * A concrete service meets the hypotheses of C193-C195 *)
From Coq Require Import ZArith QArith List Bool Lia String Ascii.
From Verif Require Import Base Num XR Dict QuakeML_model Spec_QuakeML QuakeML_proofs Props_QuakeML Spec_Xml Xml_model Xml_proofs Props_Xml ExportText_model ExportText_proofs Props_ExportText Tests_Xml
  Client_model Spec_Client Props_Client ClientText_model Spec_Download Props_Download.
Import ListNotations.
Open Scope string_scope.

(** five events *)
Definition ev (i : nat) : event := mkevent [("publicID", "ev" ++ String (ascii_of_nat (48 + i)) "")]
  [Plain (PText [newline]);
   Origin [("publicID", "o")] [PElem "time" [] [PElem "value" [] [PText ["2020-01-01T00:00:00"]]]; PElem "latitude" [] [PElem "value" [] [PText ["47.1"]]]];
   Magnitude [("publicID", "m")] [PElem "mag" [] [PElem "value" [] [PText ["2.4"]]]; PElem "type" [] [PText ["ML"]]]].
Definition five : list event := map ev [1; 2; 3; 4; 5]%nat.
Definition document_of (evs : list event) : doc := DElem "quakeml" [] (DText [newline] :: map DEvent evs).
Definition service (p : dict (pval xr)) : Z * string :=
  match page (int_of (dget p "limit")) (int_of (dget p "offset")) five with
  | [] => (204, "")
  | evs => (200, "" ++ xml (plain_of_doc (document_of evs)) ++ newline)
  end%Z.
Lemma skipn_sub {A} n (l : list A) x : In x (skipn n l) -> In x l.
Proof. intros H. rewrite <- (firstn_skipn n l). apply in_or_app. right. exact H. Qed.
Lemma firstn_sub {A} n (l : list A) x : In x (firstn n l) -> In x l.
Proof. intros H. rewrite <- (firstn_skipn n l). apply in_or_app. left. exact H. Qed.
Lemma page_in {A} l o (m : list A) : incl (page l o m) m.
Proof. intros x. unfold page. destruct l, o; intros H; repeat (apply firstn_sub in H || apply skipn_sub in H); exact H. Qed.
Lemma ev_ok e : In e five -> doc_ok (DEvent e) /\ safe (plain_of_doc (DEvent e)).
Proof.
  intros H. unfold five in H. apply in_map_iff in H. destruct H as (i & <- & H).
  split; [repeat constructor|]. unfold ev. cbn [plain_of_doc map ev_attrs ev_children plain_of_child].
  repeat (destruct H as [<-|H]; [safe_tree|]). destruct H.
Qed.
Lemma page_text evs : incl evs five -> quakeml_text evs ("" ++ xml (plain_of_doc (document_of evs)) ++ newline).
Proof.
  intros H. exists "", (document_of evs), newline. split; [left; reflexivity|]. split; [reflexivity|]. split; [|split; [discriminate|split; [|split; [|reflexivity]]]].
  - cbn. split; [reflexivity|]. split; [exact I|]. induction evs as [|e evs IH]; [exact I|]. cbn [map fold_right]. split; [apply ev_ok; apply H; left; reflexivity|]. apply IH. intros x Hx. apply H. right. exact Hx.
  - unfold document_of. cbn [plain_of_doc map]. apply elem_safe; [reflexivity|apply no_attrs| |].
    + cbn [apart]. split; [destruct evs; reflexivity|]. clear H. induction evs as [|e evs IH]; [exact I|]. split; [discriminate|exact IH].
    + split; [split; [reflexivity|apply no_marker; reflexivity]|]. rewrite map_map. induction evs as [|e evs IH]; [exact I|]. split; [apply ev_ok; apply H; left; reflexivity|]. apply IH. intros x Hx. apply H. right. exact Hx.
  - unfold docs_events, document_of. cbn [flat_map events_of app]. rewrite app_nil_r. clear H. induction evs as [|e evs IH]; [reflexivity|]. cbn [map flat_map events_of app]. f_equal. exact IH.
Qed.
Example service_serves : serves service (fun _ => five).
Proof.
  intros p. unfold service. pose proof (page_in (int_of (dget p "limit")) (int_of (dget p "offset")) five) as H. destruct (page _ _ five) as [|e evs]; [left; split; reflexivity|right]. split; [discriminate|]. split; [reflexivity|]. apply page_text. exact H.
Qed.
(** the service, with every body cut off after [n] characters *)
Definition faulty (n : nat) (p : dict (pval xr)) : Z * string := (fst (service p), substring 0 n (snd (service p))).
Lemma substring_front n s : exists r, s = substring 0 n s ++ r.
Proof. revert s. induction n as [|n IH]; intros [|c s]; [exists ""; reflexivity|exists (String c s); reflexivity|exists ""; reflexivity|]. destruct (IH s) as (r & E). exists r. cbn. rewrite <- E. reflexivity. Qed.
Example faulty_interrupted n : interrupted service (faulty n).
Proof. intros p. split; [reflexivity|]. apply substring_front. Qed.
Definition no_args (b : option Z) : args xr unit := mkargs None None None None None None None None None None None b [].
(** downloaded in batches of two: all five; with bodies cut off after the second event: in one request
    two events and no exception, in batches of two all five; cut off elsewhere: an exception *)
Definition ids (x : option (answer * list (dict (pval xr)))) : option (list (option (option string)) * nat) :=
  match x with Some (Records rs, log) => Some (map (fun r => dget r "eventID") rs, List.length log) | _ => None end.
Notation get s b := (get_events_text (fun _ : unit => "") s cut_first (fun _ => Ok 1%Q) (fun _ => Ok 1%Z) (fun l => l) 10 true (no_args b)).
Example download_runs : ids (get service (Some 2%Z)) = Some (map (fun s => Some (Some s)) ["ev1"; "ev2"; "ev3"; "ev4"; "ev5"], 8%nat) /\
  ids (get service None) = Some (map (fun s => Some (Some s)) ["ev1"; "ev2"; "ev3"; "ev4"; "ev5"], 1%nat).
Proof. split; vm_compute; reflexivity. Qed.
Example faulty_runs : ids (get (faulty 466) None) = Some (map (fun s => Some (Some s)) ["ev1"; "ev2"], 1%nat) /\
  ids (get (faulty 466) (Some 2%Z)) = Some (map (fun s => Some (Some s)) ["ev1"; "ev2"; "ev3"; "ev4"; "ev5"], 8%nat) /\
  get (faulty 473) None = Some (ParseError, [[]]).
Proof. repeat split; vm_compute; reflexivity. Qed.
Example no_limit : dget (build_params (fun _ : unit => "") (no_args (Some 2%Z))) "limit" = None /\ dget (build_params (fun _ : unit => "") (no_args (Some 2%Z))) "offset" = None.
Proof. split; reflexivity. Qed.
(** an error page *)
Example error_page : quakeml_text [] "<html><body>Internal server error</body></html>".
Proof.
  exists "", (DElem "html" [] [DElem "body" [] [DText ["Internal server error"]]]), "". split; [left; reflexivity|]. split; [reflexivity|]. split; [cbn; auto|]. split; [discriminate|]. split; [|split; reflexivity].
  cbn [plain_of_doc map]. safe_tree.
Qed.
