(** C72: proofs. *)
From Coq Require Import ZArith Nnat Reals String Ascii Arith Bool Lia Lra DecimalString Decimal DecimalFacts DecimalPos DecimalN List.
From Flocq Require Import Core.
From Verif Require Import Py PyFloat PyFacts Params Likelihood DecorrSpec DecorrProofs ParTable ParTableProofs TexLabels TexSpec TexProofs RvTab RvTabSpec.
Import ListNotations.
Open Scope string_scope.

(** ** digits *)
Lemma digits_app a : forall b acc, digits (a ++ b) acc = match digits a acc with Some x => digits b x | None => None end.
Proof. induction a as [|c a IH]; intros b acc; [reflexivity|]. cbn [append digits]. destruct (digit c); [apply IH|reflexivity]. Qed.
Lemma digit_char n : (n < 10)%N -> digit (ascii_of_N (48 + n)) = Some (Z.of_N n).
Proof. intro H. destruct n as [|p]; [reflexivity|]. do 4 (destruct p as [p|p|]; try lia; try reflexivity). Qed.

Lemma uint_acc u : forall acc, digits (NilEmpty.string_of_uint u) (Zpos acc) = Some (Zpos (Pos.of_uint_acc u acc)).
Proof.
  induction u; intro acc; cbn [NilEmpty.string_of_uint digits Pos.of_uint_acc]; [reflexivity|..];
    match goal with |- context [digit ?c] => let v := eval vm_compute in (digit c) in change (digit c) with v end; cbn match; rewrite <- IHu; f_equal; lia.
Qed.
Lemma uint_value u : digits (NilEmpty.string_of_uint u) 0 = Some (Z.of_N (N.of_uint u)).
Proof.
  unfold N.of_uint. induction u; cbn [NilEmpty.string_of_uint digits Pos.of_uint]; [reflexivity|..];
    match goal with |- context [digit ?c] => let v := eval vm_compute in (digit c) in change (digit c) with v end; cbn match;
    [exact IHu|..]; cbn [Z.mul Z.add]; rewrite uint_acc; reflexivity.
Qed.
Lemma str_N_value n : digits (str_N n) 0 = Some (Z.of_N n).
Proof. unfold str_N. rewrite uint_value. now rewrite DecimalN.Unsigned.of_to. Qed.
Lemma str_N_nonempty n : str_N n <> "".
Proof.
  unfold str_N. intro H. assert (N.to_uint n = Nil) as E by (destruct (N.to_uint n); [reflexivity|discriminate..]).
  destruct n as [|p]; [discriminate|]. revert E. apply DecimalPos.Unsigned.to_uint_nonnil.
Qed.

Definition plain (s : string) : Prop := forall acc, exists v, digits s acc = Some v.
Lemma plain_app a b : plain a -> plain b -> plain (a ++ b).
Proof. intros Ha Hb acc. rewrite digits_app. destruct (Ha acc) as [x ->]. apply Hb. Qed.
Lemma low_value k : forall n acc, digits (low_digits k n) acc = Some (acc * 10 ^ Z.of_nat k + Z.of_N (n mod 10 ^ N.of_nat k))%Z.
Proof.
  induction k as [|k IH]; intros n acc.
  - cbn. rewrite N.mod_1_r. f_equal. lia.
  - cbn [low_digits]. rewrite digits_app, IH. cbn [digits]. rewrite digit_char by (apply N.mod_lt; lia). f_equal.
    rewrite Nat2Z.inj_succ, Z.pow_succ_r by lia. rewrite Nnat.Nat2N.inj_succ, N.pow_succ_r'.
    rewrite (N.mod_mul_r n 10 (10 ^ N.of_nat k)) by (try lia; apply N.pow_nonzero; lia). rewrite N2Z.inj_add, N2Z.inj_mul. cbn [Z.of_N]. lia.
Qed.
Lemma low_length k : forall n, String.length (low_digits k n) = k.
Proof. induction k as [|k IH]; intro n; [reflexivity|]. cbn [low_digits]. rewrite length_app_s, IH. cbn. lia. Qed.

(** ** the point *)
Lemma at_point_app a b : (forall acc, digits a acc <> None) -> at_point (a ++ "." ++ b) = Some (a, b).
Proof.
  induction a as [|c a IH]; intro H; [reflexivity|]. cbn [append at_point]. destruct (Ascii.eqb_spec c ".") as [->|N].
  - exfalso. apply (H 0%Z). reflexivity.
  - change (String "." b) with ("." ++ b). rewrite IH; [reflexivity|]. intros acc E. specialize (H 0%Z). cbn [digits] in H. destruct (digit c) as [d|]; [|easy].
    apply H. clear - E. revert E. generalize (10 * 0 + d)%Z. revert acc. induction a as [|x a IH]; intros acc z E; [discriminate|]. cbn [digits] in *. destruct (digit x); [eapply IH; eauto|reflexivity].
Qed.
Lemma digits_total s : forall a b, digits s a <> None -> digits s b <> None.
Proof. induction s as [|c s IH]; intros a b; cbn [digits]; [discriminate|]. destruct (digit c); [apply IH|easy]. Qed.
Lemma str_N_digits n acc : digits (str_N n) acc <> None.
Proof. apply (digits_total _ 0%Z). rewrite str_N_value. discriminate. Qed.

Open Scope R_scope.
Lemma pow10_N d : IZR (Z.of_N (10 ^ N.of_nat d)) = 10 ^ d.
Proof. rewrite N2Z.inj_pow. rewrite nat_N_Z. rewrite <- pow_IZR. reflexivity. Qed.
Lemma pow10_pos d : 0 < 10 ^ d.
Proof. apply pow_lt. lra. Qed.
Lemma unsigned_value d n : unsigned d (str_N (n / 10 ^ N.of_nat d) ++ "." ++ low_digits d n) = Some (IZR (Z.of_N n) / 10 ^ d).
Proof.
  unfold unsigned. rewrite at_point_app by (intro; apply str_N_digits). rewrite low_length, Nat.eqb_refl.
  destruct (String.eqb_spec (str_N (n / 10 ^ N.of_nat d)) "") as [E|_]; [now apply str_N_nonempty in E|]. cbn [orb negb].
  rewrite str_N_value, low_value. f_equal. cbn [Z.mul Z.add].
  assert (Z.of_N n = Z.of_N (10 ^ N.of_nat d) * Z.of_N (n / 10 ^ N.of_nat d) + Z.of_N (n mod 10 ^ N.of_nat d))%Z as E.
  { rewrite <- N2Z.inj_mul, <- N2Z.inj_add. f_equal. apply N.div_mod. apply N.pow_nonzero. lia. }
  transitivity ((IZR (Z.of_N (10 ^ N.of_nat d) * Z.of_N (n / 10 ^ N.of_nat d) + Z.of_N (n mod 10 ^ N.of_nat d)))%Z / 10 ^ d); [|now rewrite <- E].
  rewrite plus_IZR, mult_IZR, pow10_N. pose proof (pow10_pos d). field. lra.
Qed.
Lemma digit_first n : exists c r, str_N n = String c r /\ Ascii.eqb c "-" = false.
Proof.
  pose proof (str_N_nonempty n) as NE. pose proof (str_N_digits n 0) as D. destruct (str_N n) as [|c r]; [easy|]. exists c, r. split; [reflexivity|].
  destruct (Ascii.eqb_spec c "-") as [->|]; [exfalso; apply D|]; reflexivity.
Qed.
Lemma fixed_reads d x : exists v, reading d (fixed d x) = Some v /\ Rabs (v - x) <= / 2 / 10 ^ d.
Proof.
  unfold fixed. set (n := Z.to_N (ZnearestE (Rabs x * 10 ^ d))). cbv zeta.
  assert (Rabs (IZR (Z.of_N n) / 10 ^ d - Rabs x) <= / 2 / 10 ^ d) as A.
  { assert (Z.of_N n = ZnearestE (Rabs x * 10 ^ d)) as ->.
    { unfold n. rewrite Z2N.id; [reflexivity|]. apply Z.le_trans with (Zfloor (Rabs x * 10 ^ d)).
      - apply Zfloor_lub. cbn. apply Rmult_le_pos; [apply Rabs_pos|left; apply pow10_pos].
      - apply Znearest_ge_floor. }
    pose proof (pow10_pos d). pose proof (Znearest_half (fun z => negb (Z.even z)) (Rabs x * 10 ^ d)) as H1.
    replace (IZR (ZnearestE (Rabs x * 10 ^ d)) / 10 ^ d - Rabs x) with ((IZR (ZnearestE (Rabs x * 10 ^ d)) - Rabs x * 10 ^ d) / 10 ^ d) by (field; lra).
    unfold Rdiv at 1. rewrite Rabs_mult, (Rabs_pos_eq (/ 10 ^ d)) by (left; now apply Rinv_0_lt_compat).
    apply Rmult_le_compat_r; [left; now apply Rinv_0_lt_compat|]. rewrite Rabs_minus_sym. exact H1. }
  destruct (digit_first (n / 10 ^ N.of_nat d)) as (c & r & E & NM).
  destruct (rltb x 0) eqn:S.
  - apply rltb_true in S. change (("-" ++ str_N (n / 10 ^ N.of_nat d) ++ "." ++ low_digits d n)%string) with (String "-" (str_N (n / 10 ^ N.of_nat d) ++ "." ++ low_digits d n)).
    unfold reading. change (Ascii.eqb "-" "-") with true. cbv iota. rewrite unsigned_value. eexists. split; [reflexivity|].
    rewrite (Rabs_left x) in A by exact S. rewrite <- Rabs_Ropp. replace (- (- (IZR (Z.of_N n) / 10 ^ d) - x)) with (IZR (Z.of_N n) / 10 ^ d - - x) by lra. exact A.
  - apply rltb_false in S. rewrite (Rabs_pos_eq x) in A by lra. eexists. split; [|exact A]. rewrite E. cbn [append reading]. rewrite NM. rewrite <- unsigned_value, E. reflexivity.
Qed.

Lemma fixed_shows d x : shows d (fixed d x) x.
Proof. exact (fixed_reads d x). Qed.

(** ** instruments *)
Lemma subst_us r a b : forall f, (String.length a + 1 + String.length b < f)%nat -> ~ occurs "_" a -> ~ occurs "_" b ->
  subst_all f "_" r (a ++ "_" ++ b) = (a ++ r ++ b)%string.
Proof.
  induction a as [|c a IH]; intros f L H1 H2; (destruct f as [|f]; [lia|]).
  - cbn [append subst_all strip_prefix]. change (Ascii.eqb "_" "_") with true. cbv iota. rewrite subst_none; auto; [discriminate|cbn in L; lia].
  - cbn [append subst_all]. assert (strip_prefix "_" (String c (a ++ String "_" b)) = None) as ->.
    { cbn [strip_prefix]. destruct (Ascii.eqb_spec "_" c) as [<-|]; [|reflexivity]. exfalso. apply H1. exists ""%string, a. reflexivity. }
    f_equal. apply IH; [cbn in L; lia|now apply not_occurs_tail in H1|auto].
Qed.
Lemma inst_spec inst : shown_inst inst (inst_label inst).
Proof.
  unfold inst_label. split.
  - intro H. now rewrite substr_false.
  - intros a b -> Ha Hb. assert (substr_in "_" (a ++ "_" ++ b) = true) as -> by (apply substr_occurs; exists a, b; reflexivity).
    unfold replace_by. rewrite subst_us; auto; [now rewrite <- !app_assoc_s|]. rewrite !length_app_s. cbn. lia.
Qed.

(** ** rows *)
Definition obs_of (x y e : list R) (tel : list string) : list obs :=
  map (fun '(t, (v, (s, i))) => mkObs t v s i) (combine x (combine y (combine e tel))).
Lemma row_at x : forall y e tel i, length y = length x -> length e = length x -> length tel = length x -> (i < length x)%nat ->
  exists row o, rv_row x y e tel i = Ok row /\ nth_error (obs_of x y e tel) i = Some o /\ row_of row o.
Proof.
  intros y e tel i H1 H2 H3 Hi.
  assert (exists t, nth_error x i = Some t) as [t E1] by (destruct (nth_error x i) eqn:E; [eauto|apply nth_error_None in E; lia]).
  assert (exists v, nth_error y i = Some v) as [v E2] by (destruct (nth_error y i) eqn:E; [eauto|apply nth_error_None in E; lia]).
  assert (exists s, nth_error e i = Some s) as [s E3] by (destruct (nth_error e i) eqn:E; [eauto|apply nth_error_None in E; lia]).
  assert (exists u, nth_error tel i = Some u) as [u E4] by (destruct (nth_error tel i) eqn:E; [eauto|apply nth_error_None in E; lia]).
  eexists. exists (mkObs t v s u). unfold rv_row, at_idx. rewrite E1, E2, E3, E4. cbn [bind]. split; [reflexivity|]. split.
  - clear - E1 E2 E3 E4. revert y e tel i E1 E2 E3 E4. unfold obs_of. induction x as [|a x IH]; intros y e tel [|i] E1 E2 E3 E4; try discriminate;
      destruct y as [|b y], e as [|c e], tel as [|d tel]; try discriminate; cbn in *; [congruence|]. now apply IH.
  - exists (fixed 5 t), (fixed 2 v), (fixed 2 s), (inst_label u). split; [reflexivity|]. cbn. repeat split; try apply fixed_shows; apply inst_spec.
Qed.
Lemma rows_prefix x y e tel k : forall j, length y = length x -> length e = length x -> length tel = length x -> (j + k <= length x)%nat ->
  exists rows, map_res (rv_row x y e tel) (seq j k) = Ok rows /\ Forall2 row_of rows (firstn k (skipn j (obs_of x y e tel))).
Proof.
  induction k as [|k IH]; intros j H1 H2 H3 H; [exists []; split; [reflexivity|constructor]|].
  destruct (row_at x y e tel j) as (row & o & E & N & RO); auto; [lia|]. destruct (IH (S j)) as (rows & ER & F); auto; [lia|].
  exists (row :: rows). cbn [seq map_res]. rewrite E. cbn [bind]. rewrite ER. split; [reflexivity|].
  apply nth_error_split in N as (l1 & l2 & EO & Hl). rewrite EO in *. rewrite <- Hl in *. rewrite skipn_app, skipn_all, Nat.sub_diag. cbn [skipn app firstn]. constructor; [exact RO|].
  replace (skipn (S (length l1)) (l1 ++ o :: l2)) with l2 in F; [exact F|]. change (S (length l1)) with (1 + length l1)%nat. rewrite Nat.add_comm. rewrite skipn_app.
  rewrite skipn_all2 by lia. replace (length l1 + 1 - length l1)%nat with 1%nat by lia. reflexivity.
Qed.

Lemma obs_cols os : obs_of (map o_t os) (map o_v os) (map o_e os) (map o_inst os) = os.
Proof. unfold obs_of. induction os as [|[t v e i] os IH]; [reflexivity|]. cbn. f_equal. exact IH. Qed.

Definition wanted (max_lines : option R) (n : nat) : nat :=
  match max_lines with None => n | Some m => Nat.min (if (ZnearestE m <? 0)%Z then Z.to_nat (Z.of_nat n + ZnearestE m) else Z.to_nat (ZnearestE m)) n end.
Lemma firstn_seq k : forall j n, firstn k (seq j n) = seq j (Nat.min k n).
Proof. induction k as [|k IH]; intros j [|n]; try reflexivity. cbn. now rewrite IH. Qed.
Theorem table_rows max_lines os : exists rows notes,
  tab_rv max_lines (map o_t os) (map o_v os) (map o_e os) (map o_inst os) = Ok (rows, notes) /\
  Forall2 row_of rows (firstn (wanted max_lines (length os)) os) /\
  notes = match max_lines with None => ""%string | Some m => rv_note (ZnearestE m) (length os) end.
Proof.
  unfold tab_rv. rewrite map_length.
  destruct (rows_prefix (map o_t os) (map o_v os) (map o_e os) (map o_inst os) (wanted max_lines (length os)) 0) as (rows & E & F); rewrite ?map_length; auto.
  { unfold wanted. destruct max_lines; lia. }
  rewrite obs_cols in F. cbn [skipn] in F. exists rows. destruct max_lines as [m|].
  - eexists. unfold range_to. rewrite firstn_seq. cbn [wanted] in E. rewrite E. cbn [bind]. auto.
  - cbn [wanted] in *. eexists. rewrite E. cbn [bind]. auto.
Qed.
Theorem rows_all os : exists rows, tab_rv None (map o_t os) (map o_v os) (map o_e os) (map o_inst os) = Ok (rows, ""%string) /\ Forall2 row_of rows os.
Proof.
  destruct (table_rows None os) as (rows & notes & E & F & ->). exists rows. split; [exact E|]. cbn [wanted] in F. now rewrite firstn_all in F.
Qed.
Theorem rows_first m os : exists rows notes, tab_rv (Some (INR m)) (map o_t os) (map o_v os) (map o_e os) (map o_inst os) = Ok (rows, notes) /\
  Forall2 row_of rows (firstn m os) /\ says notes m (length os).
Proof.
  destruct (table_rows (Some (INR m)) os) as (rows & notes & E & F & ->). exists rows. eexists. split; [exact E|].
  assert (ZnearestE (INR m) = Z.of_nat m) as EM by (rewrite INR_IZR_INZ; apply Znearest_imp; rewrite Rminus_diag_eq, Rabs_R0 by reflexivity; lra).
  cbn [wanted] in F. rewrite EM in *. destruct (Z.ltb_spec (Z.of_nat m) 0) as [L|_]; [lia|]. rewrite Nat2Z.id in F. split.
  - destruct (Nat.le_ge_cases m (length os)) as [L|L]; [now rewrite Nat.min_l in F|]. rewrite Nat.min_r, firstn_all in F by exact L. now rewrite firstn_all2.
  - exists (str_Z (Z.of_nat m)), (str_N (N.of_nat (length os))). split; [reflexivity|]. rewrite str_N_value, nat_N_Z. split; [|reflexivity].
    unfold str_Z. destruct (Z.ltb_spec (Z.of_nat m) 0) as [L|_]; [lia|]. cbn [append]. rewrite str_N_value, N2Z.inj_abs_N. f_equal. lia.
Qed.

(** ** different observations, different rows *)
Definition no_blank (s : string) : Prop := ~ occurs " " s.
Lemma digit_not_blank s acc : digits s acc <> None -> no_blank s.
Proof.
  revert acc. induction s as [|c s IH]; intros acc H (p & q & E); [destruct p; discriminate|]. cbn [digits] in H. destruct (digit c) as [d|] eqn:D; [|easy].
  destruct p as [|c' p]; cbn in E; [injection E as -> _; discriminate D|]. injection E as _ ->. eapply IH; [exact H|]. exists p, q. reflexivity.
Qed.
Lemma occurs_char_app a b c : occurs (String c "") (a ++ b) -> occurs (String c "") a \/ occurs (String c "") b.
Proof.
  intros (p & q & E). revert p E. induction a as [|x a IH]; intros p E; cbn in E; [right; now exists p, q|]. destruct p as [|y p]; cbn in E.
  - injection E as -> _. left. exists ""%string, a. reflexivity.
  - injection E as -> E. destruct (IH _ E) as [(u & v & ->)|H]; [left; exists (String y u), v; reflexivity|now right].
Qed.
Lemma fixed_no_blank d x : no_blank (fixed d x).
Proof.
  unfold no_blank, fixed. cbv zeta. intro H. apply occurs_char_app in H as [H|H].
  - destruct (rltb x 0); [|destruct H as ([|? ?] & q & E); discriminate]. destruct H as (p & q & E). destruct p as [|? [|? ?]]; discriminate.
  - apply occurs_char_app in H as [H|H].
    + revert H. apply (digit_not_blank _ 0%Z), str_N_digits.
    + apply occurs_char_app in H as [H|H]; [destruct H as (p & q & E); destruct p as [|? [|? ?]]; discriminate|].
      revert H. apply (digit_not_blank _ 0%Z). rewrite low_value. discriminate.
Qed.
Lemma blank_split a : forall b r s, no_blank a -> no_blank b -> (a ++ String " " r = b ++ String " " s)%string -> a = b /\ r = s.
Proof.
  induction a as [|c a IH]; intros [|d b] r s Ha Hb E; cbn in E.
  - injection E. auto.
  - injection E as <- _. exfalso. apply Hb. exists ""%string, b. reflexivity.
  - injection E as -> _. exfalso. apply Ha. exists ""%string, a. reflexivity.
  - injection E as -> E. apply IH in E; [destruct E as [-> ->]; auto| |].
    + intro H. apply (not_occurs_tail " " d a Ha H).
    + intro H. apply (not_occurs_tail " " d b Hb H).
Qed.
Lemma close_values d x y : fixed d x = fixed d y -> Rabs (x - y) <= / 10 ^ d.
Proof.
  intro E. destruct (fixed_reads d x) as (v & R1 & B1). destruct (fixed_reads d y) as (w & R2 & B2). rewrite E, R2 in R1. injection R1 as ->.
  pose proof (pow10_pos d). replace (x - y) with (- (v - x) + (v - y)) by lra. eapply Rle_trans; [apply Rabs_triang|]. rewrite Rabs_Ropp.
  replace (/ 10 ^ d) with (/ 2 / 10 ^ d + / 2 / 10 ^ d) by (field; lra). lra.
Qed.
Theorem same_row x y e tel i j row : rv_row x y e tel i = Ok row -> rv_row x y e tel j = Ok row ->
  exists t t' v v' s s', nth_error x i = Some t /\ nth_error x j = Some t' /\ nth_error y i = Some v /\ nth_error y j = Some v' /\ nth_error e i = Some s /\ nth_error e j = Some s' /\
  Rabs (t - t') <= / 10 ^ 5 /\ Rabs (v - v') <= / 10 ^ 2 /\ Rabs (s - s') <= / 10 ^ 2.
Proof.
  unfold rv_row, at_idx. destruct (nth_error x i) as [t|], (nth_error y i) as [v|], (nth_error e i) as [s|], (nth_error tel i) as [u|]; try discriminate.
  destruct (nth_error x j) as [t'|], (nth_error y j) as [v'|], (nth_error e j) as [s'|], (nth_error tel j) as [u'|]; try discriminate. cbn [bind].
  intros E1 E2. assert ((fixed 5 t ++ " & " ++ fixed 2 v ++ " & " ++ fixed 2 s ++ " & " ++ inst_label u)%string = (fixed 5 t' ++ " & " ++ fixed 2 v' ++ " & " ++ fixed 2 s' ++ " & " ++ inst_label u')%string) as E by congruence.
  exists t, t', v, v', s, s'. cbn [append] in E. apply blank_split in E as [A E]; try apply fixed_no_blank. injection E as E. apply blank_split in E as [B E]; try apply fixed_no_blank.
  injection E as E. apply blank_split in E as [C E]; try apply fixed_no_blank. repeat split; auto; now apply close_values.
Qed.

(** ** braces of the name of the instrument *)
Fixpoint unders (s : string) : nat := match s with "" => 0%nat | String c r => if Ascii.eqb c "_" then S (unders r) else unders r end.
Lemma depth_subst s : forall f d, (String.length s < f)%nat -> no_brace s -> depth (subst_all f "_" "$_{\rm " s) d = Some (d + unders s)%nat.
Proof.
  induction s as [|c s IH]; intros f d L NB; (destruct f as [|f]; [lia|]); cbn [subst_all strip_prefix]; [cbn; f_equal; lia|].
  assert (no_brace s) as NB' by (destruct NB as [N1 N2]; split; eapply not_occurs_tail; eassumption).
  cbn [unders]. rewrite Ascii.eqb_sym. destruct (Ascii.eqb_spec c "_") as [->|N].
  - rewrite depth_app. change (depth "$_{\rm " d) with (Some (S d)). cbv iota. rewrite IH; auto; [f_equal; lia|cbn in L; lia].
  - cbn [depth]. destruct (Ascii.eqb_spec c "{") as [->|]; [exfalso; apply (proj1 NB); exists ""%string, s; reflexivity|].
    destruct (Ascii.eqb_spec c "}") as [->|]; [exfalso; apply (proj2 NB); exists ""%string, s; reflexivity|]. apply IH; auto. cbn in L. lia.
Qed.
Lemma unders_occurs s : occurs "_" s <-> (0 < unders s)%nat.
Proof.
  induction s as [|c s IH]; cbn [unders].
  - split; [intros ([|? ?] & q & E); discriminate|lia].
  - destruct (Ascii.eqb_spec c "_") as [->|N].
    + split; [lia|intros _; exists ""%string, s; reflexivity].
    + rewrite <- IH. split; intros (p & q & E); [destruct p as [|x p]; cbn in E; [injection E as -> _; easy|]; injection E as -> E; now exists p, q|].
      exists (String c p), q. cbn. now rewrite E.
Qed.
Theorem inst_braces inst : no_brace inst -> (balanced (inst_label inst) <-> (unders inst <= 1)%nat).
Proof.
  intro NB. unfold inst_label, balanced. destruct (substr_in "_" inst) eqn:E.
  - apply substr_occurs, unders_occurs in E. unfold replace_by. rewrite depth_app, depth_subst by (auto || lia). cbv iota.
    destruct (unders inst) as [|[|n]] eqn:U; [lia| |]; cbn; split; intro; try lia; try reflexivity; discriminate.
  - rewrite depth_plain by exact NB. split; [intros _|reflexivity]. destruct (Nat.le_gt_cases (unders inst) 1); [auto|].
    assert (occurs "_" inst) as O by (apply unders_occurs; lia). apply substr_occurs in O. congruence.
Qed.
Lemma unders_app a b : unders (a ++ b) = (unders a + unders b)%nat.
Proof. induction a as [|c a IH]; cbn; [reflexivity|]. destruct (Ascii.eqb c "_"); rewrite IH; reflexivity. Qed.
Theorem inst_balanced a b : no_brace (a ++ "_" ++ b) -> ~ occurs "_" a -> ~ occurs "_" b -> balanced (inst_label (a ++ "_" ++ b)).
Proof.
  intros NB Ha Hb. apply inst_braces; [exact NB|]. rewrite !unders_app. cbn. rewrite unders_occurs in Ha, Hb. lia.
Qed.
Theorem inst_unbalanced a b c : no_brace (a ++ "_" ++ b ++ "_" ++ c) -> ~ balanced (inst_label (a ++ "_" ++ b ++ "_" ++ c)).
Proof. intros NB H. apply inst_braces in H; [|exact NB]. rewrite !unders_app in H. cbn in H. lia. Qed.

(** ** criteria *)
Lemma blanks_only k : only_blanks (blanks k).
Proof.
  induction k as [|k IH]; intros p c q E; [destruct p; discriminate|]. destruct p as [|x p]; cbn in E; injection E; [intros _ ->; reflexivity|].
  intros E' _. eapply IH; eauto.
Qed.
Lemma one_crit name val : crit_row name val (name ++ " & " ++ match val with Some v => "$" ++ to_width 7 (fixed_ext 3 v) ++ "$" | None => "None" end).
Proof.
  destruct val as [v|]; [|reflexivity]. exists (blanks (7 - String.length (fixed_ext 3 v))), (fixed_ext 3 v). unfold to_width. split; [now rewrite <- app_assoc_s|].
  split; [apply blanks_only|]. destruct v; try reflexivity. apply fixed_shows.
Qed.
Theorem crit_thm minafactor maxarchange maxgr mintz : exists r1 r2 r3 r4, tab_crit minafactor maxarchange maxgr mintz = [r1; r2; r3; r4] /\
  crit_row "minAfactor" minafactor r1 /\ crit_row "maxArchange" maxarchange r2 /\ crit_row "maxGR" maxgr r3 /\ crit_row "minTz" mintz r4.
Proof. do 4 eexists. split; [reflexivity|]. repeat split; apply one_crit. Qed.

Lemma forall2_len {A B} (P : A -> B -> Prop) l l' : Forall2 P l l' -> length l = length l'.
Proof. induction 1; cbn; congruence. Qed.
Lemma rows_length m os rows notes : tab_rv (Some (INR m)) (map o_t os) (map o_v os) (map o_e os) (map o_inst os) = Ok (rows, notes) -> length rows = Nat.min m (length os).
Proof.
  intro E. destruct (rows_first m os) as (r & n & E' & F & _). rewrite E in E'. injection E' as <- <-. apply forall2_len in F. now rewrite F, firstn_length.
Qed.
Theorem note_true m os : (m <= length os)%nat -> exists rows notes, tab_rv (Some (INR m)) (map o_t os) (map o_v os) (map o_e os) (map o_inst os) = Ok (rows, notes) /\
  says notes m (length os) /\ length rows = m.
Proof.
  intro L. destruct (rows_first m os) as (r & n & E & F & S). exists r, n. split; [exact E|]. split; [exact S|]. rewrite (rows_length _ _ _ _ E). lia.
Qed.
Theorem note_false m os : (length os < m)%nat -> exists rows notes, tab_rv (Some (INR m)) (map o_t os) (map o_v os) (map o_e os) (map o_inst os) = Ok (rows, notes) /\
  says notes m (length os) /\ length rows = length os /\ Forall2 row_of rows os.
Proof.
  intro L. destruct (rows_first m os) as (r & n & E & F & S). exists r, n. split; [exact E|]. split; [exact S|]. rewrite (rows_length _ _ _ _ E). split; [lia|].
  rewrite firstn_all2 in F by lia. exact F.
Qed.
Theorem negative_lines k os : (0 < k)%nat -> exists rows notes, tab_rv (Some (- INR k)) (map o_t os) (map o_v os) (map o_e os) (map o_inst os) = Ok (rows, notes) /\
  Forall2 row_of rows (firstn (length os - k) os) /\ exists r, notes = ("Only the first -" ++ r)%string.
Proof.
  intro K. destruct (table_rows (Some (- INR k)) os) as (rows & notes & E & F & ->). exists rows. eexists. split; [exact E|].
  assert (ZnearestE (- INR k) = - Z.of_nat k)%Z as EM by (rewrite INR_IZR_INZ, <- opp_IZR; apply Znearest_imp; rewrite Rminus_diag_eq, Rabs_R0 by reflexivity; lra).
  cbn [wanted] in F. rewrite EM in *. destruct (Z.ltb_spec (- Z.of_nat k) 0) as [_|L]; [|lia]. split.
  - replace (Z.to_nat (Z.of_nat (length os) + - Z.of_nat k)) with (length os - k)%nat in F by lia. rewrite Nat.min_l in F by lia. exact F.
  - unfold rv_note, str_Z. destruct (Z.ltb_spec (- Z.of_nat k) 0) as [_|L]; [|lia]. eexists. cbn [append]. reflexivity.
Qed.
Theorem distinct_rows max_lines os rows notes i j oi oj ri rj :
  tab_rv max_lines (map o_t os) (map o_v os) (map o_e os) (map o_inst os) = Ok (rows, notes) ->
  nth_error os i = Some oi -> nth_error os j = Some oj -> nth_error rows i = Some ri -> nth_error rows j = Some rj -> ri = rj ->
  Rabs (o_t oi - o_t oj) <= / 10 ^ 5 /\ Rabs (o_v oi - o_v oj) <= / 10 ^ 2 /\ Rabs (o_e oi - o_e oj) <= / 10 ^ 2.
Proof.
  intros E Oi Oj Ri Rj <-. unfold tab_rv in E. rewrite map_length in E.
  assert (exists k, map_res (rv_row (map o_t os) (map o_v os) (map o_e os) (map o_inst os)) (seq 0 k) = Ok rows) as [k M].
  { destruct max_lines as [m|]; cbv zeta iota beta in E.
    - unfold range_to in E. rewrite firstn_seq in E. match type of E with context [seq 0 ?k] => exists k; destruct (map_res (rv_row (map o_t os) (map o_v os) (map o_e os) (map o_inst os)) (seq 0 k)) end; cbn [bind] in E; congruence.
    - exists (length os). destruct (map_res (rv_row (map o_t os) (map o_v os) (map o_e os) (map o_inst os)) (seq 0 (length os))); cbn [bind] in E; congruence. }
  assert (forall n r, nth_error rows n = Some r -> rv_row (map o_t os) (map o_v os) (map o_e os) (map o_inst os) n = Ok r) as Q.
  { clear - M. intros n r H. change n with (0 + n)%nat. revert rows n M H. generalize 0%nat as j. induction k as [|k IH]; intros j rows n M H; cbn [seq map_res] in M.
    - injection M as <-. destruct n; discriminate.
    - destruct (rv_row _ _ _ _ j) as [a|] eqn:Ea; cbn [bind] in M; [|discriminate]. destruct (map_res _ (seq (S j) k)) as [b|] eqn:Eb; cbn [bind] in M; [|discriminate]. injection M as <-.
      destruct n as [|n]; cbn in H; [injection H as <-; now rewrite Nat.add_0_r|]. replace (j + S n)%nat with (S j + n)%nat by lia. eapply IH; eauto. }
  destruct (same_row _ _ _ _ _ _ _ (Q _ _ Ri) (Q _ _ Rj)) as (t & t' & v & v' & s & s' & H1 & H2 & H3 & H4 & H5 & H6 & B).
  rewrite nth_error_map, Oi in H1, H3, H5. rewrite nth_error_map, Oj in H2, H4, H6. cbn in *. injection H1 as <-. injection H2 as <-. injection H3 as <-. injection H4 as <-. injection H5 as <-. injection H6 as <-. exact B.
Qed.
