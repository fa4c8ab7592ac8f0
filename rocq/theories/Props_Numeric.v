(** * C198-C202: numbers that arrive as texts (pd.to_numeric, catalogs/catalog.py:181-184) in double precision *)
From Coq Require Import ZArith List Bool String Ascii Lia Reals Lra Psatz.
From Flocq Require Import Core.
From Verif Require Import Base Num XR Utils_model Openquake_model F64 Spec_F64 F64_proofs Numeric_model Spec_Numeric Numeric_proofs Numeric_f64 F64_test.
Import ListNotations.
Open Scope string_scope.
Open Scope R_scope.

(** ** columns *)
Section Column.
  Context {T : Type} {N : Num T}.
  Lemma all_some_nth l zs : all_some l = Some zs -> forall i o, nth_error l i = Some o -> exists z, nth_error zs i = Some z /\ o = Some z.
  Proof.
    revert zs. induction l as [|[z|] l IH]; intros zs; [intros _ [|i] o; discriminate| |discriminate]. cbn [all_some]. destruct (all_some l) as [r|] eqn:E; [|discriminate]. intros [= <-] [|i] o.
    - cbn. intros [= <-]. exists z. split; reflexivity.
    - cbn. apply IH. reflexivity.
  Qed.
  Lemma column_nth (l : list (cell T)) i c : nth_error l i = Some c ->
    match to_numeric l with
    | Floats r => nth_error r i = Some (fst (convert c))
    | Ints r => exists z, nth_error r i = Some z /\ snd (convert c) = Some z
    end.
  Proof.
    intros H. unfold to_numeric. assert (F : nth_error (map fst (map convert l)) i = Some (fst (convert c))) by (rewrite !nth_error_map, H; reflexivity).
    destruct (all_some _) as [zs|] eqn:E; [|exact F]. destruct (fits zs); [|exact F].
    apply (all_some_nth _ _ E). rewrite !nth_error_map, H. reflexivity.
  Qed.
  Lemma spelled_nonempty t n : spells t n -> t <> "".
  Proof.
    intros ((_ & _ & W & _) & b1 & b2 & _ & _ & ->) E. destruct b1; [|discriminate]. cbn in E. unfold numeral_text in E. unfold frac_digits in W.
    destruct (n_sign n); [|discriminate|discriminate]. cbn in E. destruct (n_int n); [|discriminate]. cbn in E. destruct (n_frac n); [discriminate|]. apply W. reflexivity.
  Qed.
  Lemma convert_text t v b : t <> "" -> xstrtod t = Some (v, b) -> convert (CText t) = (v, if b then Some (to_int t) else None).
  Proof. intros H E. destruct t as [|c t]; [congruence|]. cbn [convert]. unfold floatify. rewrite E. destruct b; reflexivity. Qed.
  Lemma column_text (l : list (cell T)) i t n v : nth_error l i = Some (CText t) -> spells t n -> xstrtod t = Some (v, is_integer n) ->
    match to_numeric l with
    | Floats r => nth_error r i = Some v
    | Ints r => exists z, nth_error r i = Some z /\ IZR z = value n /\ Z.abs z = mantissa n
    end.
  Proof.
    intros H S E. pose proof (column_nth l i _ H) as C. rewrite (convert_text t v _ (spelled_nonempty t n S) E) in C. cbn [fst snd] in C.
    destruct (to_numeric l); [|exact C]. destruct C as (z & C1 & C2). exists z. split; [exact C1|]. destruct (is_integer n) eqn:I; [|discriminate].
    injection C2; intros <-. rewrite (to_int_spelled t n S I). split.
    2:{ pose proof (dv_nonneg (app (n_int n) (frac_digits n))) as P. fold (mantissa n) in P. destruct (n_sign n); cbn [sgn_Z]; lia. }
    unfold value. unfold is_integer in I. destruct (n_frac n) eqn:Ef; [discriminate|]. destruct (n_exp n) eqn:Ee; [discriminate|].
    unfold exponent, frac_digits. rewrite Ef, Ee. cbn. ring.
  Qed.
  (** a text that is not a number *)
  Lemma lower_like t : forall w, lower_text t = w -> spelled_like t w.
  Proof.
    induction t as [|c t IH]; intros w <-; [constructor|]. cbn [lower_text]. unfold lower. destruct ((65 <=? nat_of_ascii c) && (nat_of_ascii c <=? 90))%nat eqn:E.
    - apply andb_true_iff in E. destruct E as [E1 E2]. apply Nat.leb_le in E1, E2.
      assert (C : capital (ascii_of_nat (nat_of_ascii c + 32)) = c).
      { unfold capital. rewrite nat_ascii_embedding by lia. replace ((97 <=? nat_of_ascii c + 32) && (nat_of_ascii c + 32 <=? 122))%nat with true.
        - replace (nat_of_ascii c + 32 - 32)%nat with (nat_of_ascii c) by lia. apply ascii_nat_embedding.
        - symmetry. apply andb_true_iff. split; apply Nat.leb_le; lia. }
      rewrite <- C at 1. apply like_capital. apply IH. reflexivity.
    - apply like_same. apply IH. reflexivity.
  Qed.
  Lemma floatify_none t : (forall n, ~ spells t n) -> (forall w, In w infinities -> ~ spelled_like t w) -> floatify t = None.
  Proof.
    intros H1 H2. unfold floatify. destruct (xstrtod t) as [[v b]|] eqn:E; [destruct (xstrtod_inv t v b E) as (n & S & _); destruct (H1 n S)|].
    assert (Q : forall w, In w infinities -> String.eqb (lower_text t) w = false).
    { intros w Hw. apply String.eqb_neq. intros C. apply (H2 w Hw). apply lower_like. exact C. }
    rewrite !Q by (cbn; tauto). reflexivity.
  Qed.
End Column.

Section Doubles.
  Context (L : libm).
  #[local] Instance FIn : Num xr := F64 L.

  (** C198: the nearest double *)
  Theorem C198_nearest_double (l : list (cell xr)) i t n : nth_error l i = Some (CText t) -> spells t n ->
    (digit_count n <= 17)%nat -> (mantissa n <= 2 ^ 53)%Z -> (-22 <= exponent n <= 22)%Z ->
    match to_numeric l with
    | Floats r => nth_error r i = Some (Fin (rnd (value n)))
    | Ints r => exists z, nth_error r i = Some z /\ IZR z = value n
    end.
  Proof.
    intros H S Hl Hm He. pose proof (column_text l i t n _ H S (read_exact L n t S Hl Hm ltac:(lia))) as C. destruct (to_numeric l); [|exact C].
    destruct C as (z & C1 & C2 & _). exists z. split; assumption.
  Qed.
  (** ... so a double comes back from any text of it with at most fifteen digits *)
  Theorem C198_round_trip (l : list (cell xr)) i t n x : nth_error l i = Some (CText t) -> spells t n ->
    (digit_count n <= 15)%nat -> (-22 <= exponent n <= 22)%Z -> rnd (value n) = x ->
    match to_numeric l with
    | Floats r => nth_error r i = Some (Fin x)
    | Ints r => exists z, nth_error r i = Some z /\ IZR z = x
    end.
  Proof.
    intros H S Hl He Hx. pose proof S as (W & _). pose proof (dv_bound _ (all_digits_nat n W)) as B. fold (mantissa n) in B.
    assert (B' : (mantissa n < 10 ^ 15)%Z) by (eapply Z.lt_le_trans; [exact B|apply Z.pow_le_mono_r; unfold digit_count in Hl; lia]).
    assert (Hm : (mantissa n <= 2 ^ 53)%Z) by (apply Z.lt_le_incl; eapply Z.lt_trans; [exact B'|vm_compute; reflexivity]).
    pose proof (column_text l i t n _ H S (read_exact L n t S ltac:(unfold digit_count in Hl; lia) Hm ltac:(lia))) as C. destruct (to_numeric l) as [r|r]; [|rewrite C, Hx; reflexivity].
    destruct C as (z & C1 & C2 & C3). exists z. split; [exact C1|]. rewrite <- Hx, <- C2. symmetry. apply rnd_int. lia.
  Qed.

  (** C199: a text that is no number *)
  Theorem C199_not_a_number (l : list (cell xr)) i t : nth_error l i = Some (CText t) ->
    (forall n, ~ spells t n) -> (forall w, In w infinities -> ~ spelled_like t w) ->
    exists r, to_numeric l = Floats r /\ nth_error r i = Some NaN /\ List.length r = List.length l.
  Proof.
    intros H H1 H2. assert (C : convert (CText t) = (NaN, @None Z)).
    { destruct t as [|c t]; [reflexivity|]. cbn [convert]. rewrite (floatify_none _ H1 H2). reflexivity. }
    pose proof (column_nth l i _ H) as D. rewrite C in D. cbn [fst snd] in D. unfold to_numeric in *.
    assert (Ln : List.length (map fst (map convert l)) = List.length l) by (rewrite !map_length; reflexivity).
    destruct (all_some _) as [zs|]; [destruct (fits zs); [destruct D as (? & _ & D); discriminate|]|]; (eexists; split; [reflexivity|]; split; [exact D|exact Ln]).
  Qed.
  Theorem C199_infinity (l : list (cell xr)) i t w : nth_error l i = Some (CText t) -> In w infinities -> spelled_like t w ->
    exists r, to_numeric l = Floats r /\ nth_error r i = Some (if String.prefix "-" w then NInf else PInf).
  Proof.
    intros H Hw Ht.
    assert (C : convert (CText t) = ((if String.prefix "-" w then NInf else PInf), @None Z)).
    { assert (Lo : lower_text t = w).
      { clear H. revert t Ht. assert (Q : forall w t, spelled_like t w -> Forall (fun c => In (nat_of_ascii c) [43; 45; 102; 105; 110; 116; 121]%nat) (list_ascii_of_string w) -> lower_text t = w).
        { induction 1; cbn [list_ascii_of_string lower_text]; intros F; [reflexivity| |].
          - rewrite IHspelled_like by exact (Forall_inv_tail F). f_equal. apply Forall_inv in F. unfold lower. cbn [In] in F.
            destruct ((65 <=? nat_of_ascii c) && (nat_of_ascii c <=? 90))%nat eqn:E; [|reflexivity]. apply andb_true_iff in E. destruct E as [E1 E2]. apply Nat.leb_le in E1, E2. lia.
          - rewrite IHspelled_like by exact (Forall_inv_tail F). f_equal. apply Forall_inv in F. cbn [In] in F.
            rewrite <- (ascii_nat_embedding c). repeat (destruct F as [F|F]; [rewrite <- F; reflexivity|]). destruct F. }
        intros t Ht. apply Q; [exact Ht|]. cbn [infinities In] in Hw. repeat (destruct Hw as [Hw|Hw]; [subst w; cbn [list_ascii_of_string]; repeat (apply Forall_cons; [cbn; tauto|]); apply Forall_nil|]). destruct Hw. }
      assert (X : xstrtod t = None).
      { clear H. cbn [infinities In] in Hw.
        assert (I0 : forall r, xstrtod (String "i" r) = None) by (intros; reflexivity).
        assert (I1 : forall r, xstrtod (String "I" r) = None) by (intros; reflexivity).
        assert (I2 : forall r, xstrtod (String "+" (String "i" r)) = None) by (intros; reflexivity).
        assert (I3 : forall r, xstrtod (String "+" (String "I" r)) = None) by (intros; reflexivity).
        assert (I4 : forall r, xstrtod (String "-" (String "i" r)) = None) by (intros; reflexivity).
        assert (I5 : forall r, xstrtod (String "-" (String "I" r)) = None) by (intros; reflexivity).
        repeat (destruct Hw as [Hw|Hw]; [subst w; inversion Ht; subst; clear Ht; match goal with
          | |- xstrtod (String "i" _) = _ => apply I0 | |- xstrtod (String (capital "i") _) = _ => apply I1
          | H : spelled_like ?t _ |- _ => inversion H; subst; [first [apply I2|apply I4]|first [apply I3|apply I5]] end|]). destruct Hw. }
      destruct t as [|c t]; [cbn in Lo; subst w; cbn in Hw; intuition discriminate|]. cbn [convert]. unfold floatify. rewrite X, Lo.
      cbn [infinities In] in Hw. repeat (destruct Hw as [Hw|Hw]; [subst w; reflexivity|]). destruct Hw. }
    pose proof (column_nth l i _ H) as D. rewrite C in D. cbn [fst snd] in D. destruct (to_numeric l) as [r|r]; [destruct D as (? & _ & D); discriminate|].
    exists r. split; [reflexivity|exact D].
  Qed.
  (** numbers and gaps stay *)
  Theorem C199_other_entries (l : list (cell xr)) i c : nth_error l i = Some c ->
    match c with
    | CFloat x => exists r, to_numeric l = Floats r /\ nth_error r i = Some x
    | CMissing => exists r, to_numeric l = Floats r /\ nth_error r i = Some NaN
    | CInt z => match to_numeric l with Ints r => nth_error r i = Some z | Floats r => nth_error r i = Some (fl (IZR z)) end
    | CText _ => True
    end.
  Proof.
    intros H. pose proof (column_nth l i _ H) as D. destruct c as [t|x|z|]; [exact I| | |]; cbn [convert fst snd] in D; destruct (to_numeric l) as [r|r].
    - destruct D as (? & _ & D); discriminate.
    - exists r. split; [reflexivity|exact D].
    - destruct D as (y & D1 & D2). injection D2; intros <-. exact D1.
    - exact D.
    - destruct D as (? & _ & D); discriminate.
    - exists r. split; [reflexivity|exact D].
  Qed.

  (** C202: accuracy *)
  Lemma accurate t n : spells t n -> (-200 <= exponent n + Z.of_nat (digit_count n - 17) <= 200)%Z ->
    exists v, xstrtod t = Some (Fin v, is_integer n) /\
      Rabs (v - value n) <= Rabs (value n) / 1000000000000000 + (if (digit_count n <=? 17)%nat then 0 else powerRZ 10 (exponent n + Z.of_nat (digit_count n - 17))).
  Proof.
    intros (W & b1 & b2 & H1 & H2 & ->) He. rewrite xstrtod_spelled by assumption.
    set (all := app (n_int n) (frac_digits n)). assert (Da : all_digits all) by (apply all_digits_nat; exact W).
    assert (Lu : List.length (used n) = Nat.min 17 (digit_count n)) by (unfold used; rewrite firstn_length; reflexivity).
    assert (Sh : shift n = (exponent n + Z.of_nat (digit_count n - 17))%Z).
    { unfold shift. rewrite Lu. unfold exponent, digit_count. rewrite app_length. lia. }
    set (rest := skipn 17 all). assert (Sp : all = app (used n) rest) by (unfold used, rest; symmetry; apply firstn_skipn).
    assert (Lr : List.length rest = (digit_count n - 17)%nat) by (unfold rest; rewrite skipn_length; reflexivity).
    assert (Du : all_digits (used n)) by (rewrite Sp in Da; apply Forall_app in Da; apply Da).
    assert (Dr : all_digits rest) by (rewrite Sp in Da; apply Forall_app in Da; apply Da).
    destruct (acc_near L (used n) Du ltac:(lia)) as (A & EA & HA). unfold FI2 in EA. unfold FIn. rewrite EA, Sh.
    set (k := (exponent n + Z.of_nat (digit_count n - 17))%Z) in *.
    set (M := IZR (digits_value (used n))) in *.
    assert (HM : M = 0 \/ 1 <= M <= IZR (10 ^ 17)).
    { pose proof (dv_nonneg (used n)) as Nn. destruct (zdich _ Nn) as [C|C]; [left; exact C|right; split; [exact C|]]. apply IZR_le. apply Z.lt_le_incl.
      eapply Z.lt_le_trans; [apply dv_bound; exact Du|]. apply Z.pow_le_mono_r; lia. }
    set (s := match n_sign n with Minus => true | _ => false end).
    assert (Sg : @signed xr (F64 L) (n_sign n) (Fin A) = Fin (if s then - A else A)) by (unfold s; destruct (n_sign n); reflexivity).
    rewrite Sg. destruct (scale_near L A M k ltac:(lia) HM HA s) as (v & Ev & Hv). unfold FI2 in Ev. rewrite Ev. eexists; split; [reflexivity|].
    (* the value without its sign *)
    assert (V : value n = (if s then - (IZR (mantissa n) * powerRZ 10 (exponent n)) else IZR (mantissa n) * powerRZ 10 (exponent n))).
    { unfold value, s. rewrite mult_IZR. destruct (n_sign n); cbn [sgn_Z]; ring. }
    set (V0 := IZR (mantissa n) * powerRZ 10 (exponent n)) in *.
    assert (P : 0 < powerRZ 10 (exponent n)) by apply powerRZ_pos.
    pose proof (dv_nonneg rest) as R0. pose proof (dv_bound rest Dr) as R1. rewrite Lr in R1. pose proof (dv_nonneg (used n)) as U0'.
    assert (Spl : V0 = M * powerRZ 10 k + IZR (digits_value rest) * powerRZ 10 (exponent n)).
    { unfold V0, mantissa. fold all. rewrite Sp, dv_app, Lr, plus_IZR, mult_IZR. fold M. unfold k. rewrite powerRZ_add by lra. rewrite (powerRZ_10 (Z.of_nat _)) by lia. ring. }
    assert (Tail : 0 <= IZR (digits_value rest) * powerRZ 10 (exponent n) <= (if (digit_count n <=? 17)%nat then 0 else powerRZ 10 k)).
    { split; [apply Rmult_le_pos; [apply IZR_le; exact R0|lra]|]. destruct (Nat.leb_spec (digit_count n) 17) as [Q|Q].
      - replace (digit_count n - 17)%nat with 0%nat in R1 by lia. change (10 ^ Z.of_nat 0)%Z with 1%Z in R1. replace (digits_value rest) with 0%Z by lia. lra.
      - unfold k. rewrite powerRZ_add by lra. rewrite (powerRZ_10 (Z.of_nat _)) by lia. rewrite Rmult_comm. apply Rmult_le_compat_l; [lra|]. apply IZR_le. lia. }
    assert (PK : 0 < powerRZ 10 k) by apply powerRZ_pos.
    assert (M0 : 0 <= M * powerRZ 10 k) by (apply Rmult_le_pos; [apply IZR_le; exact U0'|lra]).
    assert (AV : Rabs (value n) = V0) by (rewrite V; destruct s; rewrite ?Rabs_Ropp; apply Rabs_pos_eq; lra).
    rewrite AV. assert (Goal0 : Rabs (v - V0) <= V0 / 1000000000000000 + (if (digit_count n <=? 17)%nat then 0 else powerRZ 10 k)).
    { apply Rabs_le_inv in Hv. unfold u in Hv. apply Rabs_le. lra. }
    rewrite V. destruct s; [|exact Goal0]. replace (- v - - V0) with (- (v - V0)) by ring. rewrite Rabs_Ropp. exact Goal0.
  Qed.
  Theorem C202_accuracy (l : list (cell xr)) i t n : nth_error l i = Some (CText t) -> spells t n ->
    (-200 <= exponent n + Z.of_nat (digit_count n - 17) <= 200)%Z ->
    match to_numeric l with
    | Floats r => exists v, nth_error r i = Some (Fin v) /\
        Rabs (v - value n) <= Rabs (value n) / 1000000000000000 +
          (if (digit_count n <=? 17)%nat then 0 else powerRZ 10 (exponent n + Z.of_nat (digit_count n - 17)))
    | Ints r => exists z, nth_error r i = Some z /\ IZR z = value n
    end.
  Proof.
    intros H S He. destruct (accurate t n S He) as (v & E & Hv). pose proof (column_text l i t n _ H S E) as C. destruct (to_numeric l) as [r|r].
    - destruct C as (z & C1 & C2 & _). exists z. split; assumption.
    - exists v. split; assumption.
  Qed.

  (** C200: columns of integers: 64 bits, with a sign or without *)
  Theorem C200_integers (l : list (cell xr)) zs :
    Forall2 (fun c z => exists t n, c = CText t /\ spells t n /\ is_integer n = true /\ (digit_count n <= 200)%nat /\ z = (sgn_Z (n_sign n) * mantissa n)%Z) l zs ->
    (Forall (fun z => - 2 ^ 63 <= z < 2 ^ 63)%Z zs \/ Forall (fun z => 0 <= z < 2 ^ 64)%Z zs -> to_numeric l = Ints zs) /\
    (~ (Forall (fun z => - 2 ^ 63 <= z < 2 ^ 63)%Z zs \/ Forall (fun z => 0 <= z < 2 ^ 64)%Z zs) -> exists r, to_numeric l = Floats r).
  Proof.
    intros F. assert (A : all_some (map snd (map convert l)) = Some zs).
    { induction F as [|c z l zs (t & n & -> & S & I & D & ->) F IH]; [reflexivity|]. cbn [map].
      assert (E0 : exponent n = 0%Z). { unfold is_integer in I. destruct (n_frac n) eqn:Ef; [discriminate|]. destruct (n_exp n) eqn:Ee; [discriminate|]. unfold exponent, frac_digits. rewrite Ef, Ee. reflexivity. }
      destruct (accurate t n S ltac:(lia)) as (v & E & _). rewrite (convert_text t _ _ (spelled_nonempty t n S) E), I. cbn [snd all_some]. rewrite IH.
      rewrite (to_int_spelled t n S I). reflexivity. }
    unfold to_numeric. rewrite A. assert (Q : fits zs = true <-> Forall (fun z => - 2 ^ 63 <= z < 2 ^ 63)%Z zs \/ Forall (fun z => 0 <= z < 2 ^ 64)%Z zs).
    { clear F A. unfold fits. rewrite andb_true_iff, negb_true_iff, andb_false_iff, forallb_forall, !Forall_forall. split.
      - intros [A [B|B]]; [right|left]; intros z Hz; specialize (A z Hz); apply andb_true_iff in A; destruct A as [A1 A2]; apply Z.leb_le in A1; apply Z.ltb_lt in A2.
        + split; [|exact A2]. destruct (Z.ltb_spec z 0) as [N|N]; [|lia]. assert (existsb (fun z => z <? 0)%Z zs = true); [|congruence]. apply existsb_exists. exists z. split; [exact Hz|apply Z.ltb_lt; exact N].
        + split; [exact A1|]. destruct (Z.leb_spec (2 ^ 63) z) as [N|N]; [|exact N]. assert (existsb (fun z => 2 ^ 63 <=? z)%Z zs = true); [|congruence]. apply existsb_exists. exists z. split; [exact Hz|apply Z.leb_le; exact N].
      - intros [B|B]; (split; [intros z Hz; specialize (B z Hz); apply andb_true_iff; split; [apply Z.leb_le|apply Z.ltb_lt]; lia|]).
        + right. destruct (existsb _ _) eqn:E; [|reflexivity]. apply existsb_exists in E. destruct E as (z & Hz & E). apply Z.leb_le in E. specialize (B z Hz). lia.
        + left. destruct (existsb _ _) eqn:E; [|reflexivity]. apply existsb_exists in E. destruct E as (z & Hz & E). apply Z.ltb_lt in E. specialize (B z Hz). lia. }
    split; intros H; [rewrite (proj2 Q H); reflexivity|]. destruct (fits zs); [destruct (H (proj1 Q eq_refl))|]. eexists; reflexivity.
  Qed.
End Doubles.

(** ** C201: the nearest double is not always found *)
(** the text of 0.1 + 0.2, as str writes it *)
Definition point_three : numeral := {| n_sign := NoSign; n_int := [0]; n_frac := Some [3;0;0;0;0;0;0;0;0;0;0;0;0;0;0;0;4]; n_exp := None |}%nat.
(** a number below a thousandth, as str writes it *)
Definition small_one : numeral := {| n_sign := NoSign; n_int := [0]; n_frac := Some [0;0;0;1;2;3;4;5;6;7;8;9;0;1;2;3;4;5;6;7]; n_exp := None |}%nat.
Lemma spells_self n : well_formed n -> spells (numeral_text n) n.
Proof. intros W. split; [exact W|]. exists "", "". split; [exact I|]. split; [exact I|]. cbn [append]. rewrite sapp_nil. reflexivity. Qed.
Lemma digits_dec ds : forallb (fun d => d <? 10)%nat ds = true -> all_digits ds.
Proof. intros H. apply Forall_forall. intros d Hd. apply forallb_forall with (x := d) in H; [|exact Hd]. apply Nat.ltb_lt. exact H. Qed.
Ltac wf := split; [apply digits_dec; reflexivity|split; [apply digits_dec; reflexivity|split; [discriminate|first [exact I|split; [apply digits_dec; reflexivity|cbn; lia]]]]].
Lemma wf_point_three : well_formed point_three. Proof. wf. Qed.
Lemma wf_small_one : well_formed small_one. Proof. wf. Qed.

Section Refuted.
  Context (L : libm).
  #[local] Instance FIr : Num xr := F64 L.
  (** a text with its used digits and shift *)
  Lemma read_used n : well_formed n -> (digits_value (used n) <= 2 ^ 53)%Z -> (Z.abs (shift n) <= 22)%Z -> n_sign n = NoSign -> is_integer n = false ->
    to_numeric [CText (numeral_text n)] = @Floats xr [Fin (rnd (IZR (digits_value (used n)) * powerRZ 10 (shift n)))].
  Proof.
    intros W Hm Hk Hs Hi. assert (Du : all_digits (used n)) by (pose proof (all_digits_nat n W) as D; rewrite <- (firstn_skipn 17 (app (n_int n) (frac_digits n))) in D; apply Forall_app in D; apply D).
    assert (X : xstrtod (numeral_text n) = Some (Fin (rnd (IZR (digits_value (used n)) * powerRZ 10 (shift n))), false)).
    { destruct (spells_self n W) as (_ & b1 & b2 & H1 & H2 & E). rewrite E at 1. rewrite xstrtod_spelled by assumption. rewrite (acc_exact L) by assumption. rewrite Hs. cbn [signed].
      pose proof (dv_nonneg (used n)) as P. rewrite (scale_exact L); [rewrite Hi; reflexivity|exact Hk| |].
      - rewrite Rabs_pos_eq by (apply IZR_le; exact P). apply IZR_le. exact Hm.
      - apply rnd_int. rewrite Z.abs_eq; assumption. }
    unfold to_numeric. cbn [map]. rewrite (convert_text _ _ _ (spelled_nonempty _ n (spells_self n W)) X). reflexivity.
  Qed.
  Lemma p_neg k : (0 <= k)%Z -> forall a j, j = (- k)%Z -> IZR a * powerRZ 10 j = IZR a / IZR (10 ^ k).
  Proof. intros H a j ->. rewrite powerRZ_10_neg by exact H. reflexivity. Qed.

  Theorem C201_round_trip_refuted :
    ~ (forall t n, spells t n -> (-22 <= exponent n <= 22)%Z -> is_integer n = false -> to_numeric [CText t] = @Floats xr [Fin (rnd (value n))]).
  Proof.
    intros H. specialize (H _ point_three (spells_self _ wf_point_three) ltac:(cbn; lia) eq_refl).
    rewrite (read_used point_three) in H; [|exact wf_point_three|vm_compute; discriminate|vm_compute; discriminate|reflexivity|reflexivity].
    assert (E : rnd (IZR (digits_value (used point_three)) * powerRZ 10 (shift point_three)) = rnd (value point_three)) by congruence. clear H.
    assert (A : IZR (digits_value (used point_three)) * powerRZ 10 (shift point_three) = 3 / 10).
    { change (digits_value (used point_three)) with 3000000000000000%Z. change (shift point_three) with (-16)%Z. rewrite (p_neg 16 ltac:(lia) _ (-16) eq_refl). change (10 ^ 16)%Z with 10000000000000000%Z. lra. }
    assert (B : value point_three = 30000000000000004 / 100000000000000000).
    { unfold value. change (sgn_Z (n_sign point_three) * mantissa point_three)%Z with 30000000000000004%Z. change (exponent point_three) with (-17)%Z. rewrite (p_neg 17 ltac:(lia) _ (-17) eq_refl). reflexivity. }
    rewrite A, B in E. rewrite (rnd_is (3 / 10) 5404319552844595 (-54)) in E; [|lia|lia|cbn; apply Rabs_def1; lra].
    rewrite (rnd_is (30000000000000004 / 100000000000000000) 5404319552844596 (-54)) in E; [|lia|lia|cbn; apply Rabs_def1; lra].
    cbn in E. lra.
  Qed.
  (** ... and small numbers lose more than the last digits *)
  Theorem C201_relative_refuted :
    ~ (forall t n v, spells t n -> to_numeric [CText t] = @Floats xr [Fin v] -> Rabs (v - value n) <= Rabs (value n) / 10000000000000).
  Proof.
    intros H. pose proof (read_used small_one wf_small_one ltac:(vm_compute; discriminate) ltac:(vm_compute; discriminate) eq_refl eq_refl) as R.
    specialize (H _ small_one _ (spells_self _ wf_small_one) R). revert H. clear R.
    assert (A : IZR (digits_value (used small_one)) * powerRZ 10 (shift small_one) = 1234567890123 / 10000000000000000).
    { change (digits_value (used small_one)) with 1234567890123%Z. change (shift small_one) with (-16)%Z. rewrite (p_neg 16 ltac:(lia) _ (-16) eq_refl). reflexivity. }
    assert (B : value small_one = 12345678901234567 / 100000000000000000000).
    { unfold value. change (sgn_Z (n_sign small_one) * mantissa small_one)%Z with 12345678901234567%Z. change (exponent small_one) with (-20)%Z. rewrite (p_neg 20 ltac:(lia) _ (-20) eq_refl). reflexivity. }
    rewrite A, B. intros H. pose proof (rnd_err (1234567890123 / 10000000000000000)) as E. rewrite (Rabs_pos_eq (1234567890123 / 10000000000000000)) in E by lra. rewrite (Rabs_pos_eq (12345678901234567 / 100000000000000000000)) in H by lra.
    apply Rabs_le_inv in E, H. unfold u, h in E. lra.
  Qed.
End Refuted.

(** ** the hypotheses are met *)
Definition plain : numeral := {| n_sign := Minus; n_int := [4;6]; n_frac := Some [1;2;5]; n_exp := Some (false, Plus, [0;1]) |}%nat.
Example plain_text : numeral_text plain = "-46.125e+01". Proof. reflexivity. Qed.
Lemma wf_plain : well_formed plain. Proof. wf. Qed.
Example C198_example L : @to_numeric xr (F64 L) [CText "-46.125e+01"; CMissing; CText "word"] = Floats [Fin (-461.25); NaN; NaN].
Proof.
  assert (V : value plain = -461.25). { unfold value. change (sgn_Z (n_sign plain) * mantissa plain)%Z with (-46125)%Z. change (exponent plain) with (-2)%Z. rewrite (p_neg 2 ltac:(lia) _ (-2) eq_refl). change (10 ^ 2)%Z with 100%Z. lra. }
  assert (R : rnd (-461.25) = -461.25).
  { apply rnd_id. apply generic_format_FLT. exists (Float radix2 (-1845) (-2)); cbn [Fnum Fexp]; [unfold F2R; cbn; lra|vm_compute; reflexivity|lia]. }
  pose proof (read_exact L plain (numeral_text plain) (spells_self _ wf_plain) ltac:(vm_compute; lia) ltac:(vm_compute; discriminate) ltac:(vm_compute; discriminate)) as X.
  rewrite V, R in X. pose proof (convert_text _ _ _ (spelled_nonempty _ plain (spells_self _ wf_plain)) X) as Q. change (numeral_text plain) with "-46.125e+01" in Q. unfold FI in Q.
  unfold to_numeric. cbn [map]. rewrite Q. reflexivity.
Qed.
(** the characters of numbers *)
Definition number_char (c : ascii) : Prop := In (nat_of_ascii c) [9; 10; 11; 12; 13; 32; 43; 45; 46; 69; 101; 48; 49; 50; 51; 52; 53; 54; 55; 56; 57]%nat.
Fixpoint all_chars (P : ascii -> Prop) (s : string) : Prop := match s with EmptyString => True | String c t => P c /\ all_chars P t end.
Lemma all_chars_app P a b : all_chars P a -> all_chars P b -> all_chars P (a ++ b).
Proof. induction a; cbn; [tauto|]. intros [? ?] ?. split; auto. Qed.
Lemma spelled_chars t n : spells t n -> all_chars number_char t.
Proof.
  intros ((W1 & W2 & _ & W4) & b1 & b2 & H1 & H2 & ->).
  assert (Wh : forall b, all_white b -> all_chars number_char b).
  { induction b as [|c b IH]; cbn; [trivial|]. intros [A B]. split; [unfold white, number_char in *; cbn [In] in *; tauto|auto]. }
  assert (Dg : forall ds, all_digits ds -> all_chars number_char (digits_text ds)).
  { induction ds as [|d ds IH]; cbn [digits_text all_chars]; [trivial|]. intros D. split; [|apply IH; exact (Forall_inv_tail D)]. apply Forall_inv in D. unfold number_char. rewrite digit_char_code by exact D.
    do 10 (destruct d as [|d]; [cbn; tauto|]). lia. }
  assert (Sg : forall s, all_chars number_char (sgn_text s)) by (intros []; cbn; unfold number_char; cbn; tauto).
  repeat (apply all_chars_app); auto; unfold numeral_text.
  repeat (apply all_chars_app); auto.
  - unfold frac_digits in W2. destruct (n_frac n); [|exact I]. cbn. split; [unfold number_char; cbn; tauto|auto].
  - destruct (n_exp n) as [[[[] ?] ?]|]; [| |exact I]; cbn; (split; [unfold number_char; cbn; tauto|]); apply all_chars_app; auto; apply Dg, W4.
Qed.
(** ** Numbers out of range *)
Section Extremes.
  Context (L : libm).
  #[local] Instance FIe : Num xr := F64 L.
  Lemma shift_eq n : shift n = (exponent n + Z.of_nat (digit_count n - 17))%Z.
  Proof.
    assert (Lu : List.length (used n) = Nat.min 17 (digit_count n)) by (unfold used; rewrite firstn_length; reflexivity).
    unfold shift. rewrite Lu. unfold exponent, digit_count. rewrite app_length. lia.
  Qed.
  Lemma spelled_not_infinite t n : spells t n -> forall w, In w infinities -> String.eqb (lower_text t) w = false.
  Proof.
    intros S w Hw. apply String.eqb_neq. intros E. apply spelled_chars in S.
    assert (Q : forall v t, lower_text t = v -> all_chars number_char t -> ~ exists a b, v = a ++ String "n" b).
    { clear. induction v as [|c v IH]; intros t E S (a & b & A); [destruct a; discriminate|]. destruct t as [|d t]; [discriminate|]. cbn [lower_text] in E. injection E as E1 E2. destruct S as [S1 S2].
      destruct a as [|x a].
      - injection A as A1 _. assert (K : lower d = "n"%char) by congruence. clear - S1 K. unfold number_char in S1. pose proof (ascii_nat_embedding d) as D. cbn [In] in S1.
        repeat (destruct S1 as [S1|S1]; [rewrite <- S1 in D; rewrite <- D in K; vm_compute in K; discriminate|]). exact S1.
      - injection A as _ A2. apply (IH t E2 S2). exists a, b. exact A2. }
    apply (Q _ _ E S). cbn in Hw. repeat (destruct Hw as [<-|Hw]; [match goal with |- exists a b, ?v = _ => first [exists "i"; eexists; reflexivity|exists "+i"; eexists; reflexivity|exists "-i"; eexists; reflexivity] end|]). destruct Hw.
  Qed.
  (** C199: a number beyond 10^308 (by its exponent, after 17 digits) becomes NaN, not infinity *)
  Theorem C199_too_large (l : list (cell xr)) i t n : nth_error l i = Some (CText t) -> spells t n ->
    (308 < exponent n + Z.of_nat (digit_count n - 17))%Z ->
    exists r, to_numeric l = Floats r /\ nth_error r i = Some NaN.
  Proof.
    intros H S He. assert (C : convert (CText t) = (NaN, @None Z)).
    { pose proof (spelled_nonempty t n S) as Ne. destruct t as [|c t]; [congruence|]. cbn [convert]. unfold floatify.
      assert (X : xstrtod (String c t) = None).
      { destruct S as (W & b1 & b2 & H1 & H2 & ->). rewrite xstrtod_spelled by assumption. unfold scale. rewrite shift_eq. rewrite (proj2 (Z.ltb_lt _ _) He). reflexivity. }
      rewrite X. pose proof (spelled_not_infinite _ _ S) as Q. rewrite !Q by (cbn; tauto). reflexivity. }
    pose proof (column_nth l i _ H) as D. rewrite C in D. cbn [fst snd] in D. destruct (to_numeric l) as [r|r]; [destruct D as (? & _ & D); discriminate|]. exists r. split; [reflexivity|exact D].
  Qed.
  (** C202: a number below 10^-616 (by its exponent, after 17 digits) becomes zero *)
  Theorem C202_too_small (l : list (cell xr)) i t n : nth_error l i = Some (CText t) -> spells t n ->
    (exponent n + Z.of_nat (digit_count n - 17) < -616)%Z ->
    exists r, to_numeric l = Floats r /\ nth_error r i = Some (Fin 0).
  Proof.
    intros H S He. assert (I : is_integer n = false).
    { destruct (is_integer n) eqn:I; [|reflexivity]. exfalso. unfold is_integer in I. destruct (n_frac n) eqn:Ef; [discriminate|]. destruct (n_exp n) eqn:Ee; [discriminate|]. revert He. unfold exponent, frac_digits. rewrite Ef, Ee. cbn [List.length]. lia. }
    assert (C : convert (CText t) = (Fin 0, @None Z)).
    { pose proof (spelled_nonempty t n S) as Ne. rewrite (convert_text t (Fin 0) false Ne); [reflexivity|].
      destruct S as (W & b1 & b2 & H1 & H2 & ->). rewrite xstrtod_spelled by assumption. unfold scale. rewrite shift_eq.
      destruct (Z.ltb_spec 308 (exponent n + Z.of_nat (digit_count n - 17))); [lia|]. destruct (Z.ltb_spec 0 (exponent n + Z.of_nat (digit_count n - 17))); [lia|].
      rewrite (proj2 (Z.ltb_lt _ _) He). cbv zeta. unfold zero, FIe. rewrite F_ofZ by (cbn; lia). rewrite I. reflexivity. }
    pose proof (column_nth l i _ H) as D. rewrite C in D. cbn [fst snd] in D. destruct (to_numeric l) as [r|r]; [destruct D as (? & _ & D); discriminate|]. exists r. split; [reflexivity|exact D].
  Qed.
End Extremes.
Example extremes_case : spells "1e309" {| n_sign := NoSign; n_int := [1]; n_frac := None; n_exp := Some (false, NoSign, [3;0;9]) |}%nat /\
  spells " 2.5E-999" {| n_sign := NoSign; n_int := [2]; n_frac := Some [5]; n_exp := Some (true, Minus, [9;9;9]) |}%nat.
Proof. split; (split; [wf|]); [exists "", ""|exists " ", ""]; repeat split; cbn; unfold white; cbn; tauto. Qed.
Print Assumptions C199_too_large.
Print Assumptions C202_too_small.
Example C199_example : (forall n, ~ spells "5km" n) /\ (forall w, In w infinities -> ~ spelled_like "5km" w) /\ spelled_like "-Inf" "-inf".
Proof.
  split; [|split].
  - intros n S. apply spelled_chars in S. cbn in S. destruct S as (_ & S & _). unfold number_char in S. cbn in S. lia.
  - intros w Hw S. assert (Q : exists c t, w = String c t /\ (c = "i" \/ c = "+" \/ c = "-")%char) by (cbn in Hw; intuition (subst; eauto 6)).
    destruct Q as (c & t & -> & Q). inversion S; subst; [|match goal with H : capital _ = _ |- _ => revert H end]; destruct Q as [Q|[Q|Q]]; subst; discriminate.
  - apply like_same, (like_capital "i"), like_same, like_same, like_nil.
Qed.
Example C200_example L : @to_numeric xr (F64 L) [CText "12"; CText " -9007199254740993 "] = Ints [12; -9007199254740993]%Z.
Proof.
  apply C200_integers; [|left; repeat constructor; lia]. constructor; [|constructor; [|constructor]].
  - exists "12", {| n_sign := NoSign; n_int := [1;2]; n_frac := None; n_exp := None |}%nat. split; [reflexivity|]. split; [apply (spells_self {| n_sign := NoSign; n_int := [1;2]; n_frac := None; n_exp := None |}%nat); wf|]. split; [reflexivity|]. split; [vm_compute; lia|reflexivity].
  - set (n := {| n_sign := Minus; n_int := [9;0;0;7;1;9;9;2;5;4;7;4;0;9;9;3]; n_frac := None; n_exp := None |}%nat). exists " -9007199254740993 ", n. split; [reflexivity|].
    split; [split; [wf|exists " ", " "; repeat split; cbn; unfold white; cbn; tauto]|]. split; [reflexivity|]. split; [vm_compute; lia|reflexivity].
Qed.
Print Assumptions C198_nearest_double.
Print Assumptions C198_round_trip.
Print Assumptions C199_not_a_number.
Print Assumptions C199_infinity.
Print Assumptions C199_other_entries.
Print Assumptions C200_integers.
Print Assumptions C201_round_trip_refuted.
Print Assumptions C201_relative_refuted.
Print Assumptions C202_accuracy.
