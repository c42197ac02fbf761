(** C52: the model comparison table. *)
From Coq Require Import Reals String Arith Bool Lia Lra Sorted Permutation List.
From Verif Require Import Py PyFloat PyFacts CompTable CompTableSpec.
Import ListNotations.
Open Scope string_scope.
Open Scope nat_scope.

(** ** order *)
Lemma insert_perm x l : Permutation (x :: l) (insert x l).
Proof.
  induction l as [|y r IH]; cbn; [reflexivity|]. destruct (ext_ltb (s_aicc y) (s_aicc x)); [|reflexivity].
  rewrite perm_swap. now constructor.
Qed.
Theorem sort_perm l : Permutation l (sort l).
Proof. induction l as [|x r IH]; cbn; [constructor|]. rewrite <- insert_perm. now constructor. Qed.
Lemma ltb_asym a b : ext_ltb a b = true -> ext_ltb b a = false.
Proof. destruct a, b; cbn; try discriminate; auto. rewrite rltb_true, rltb_false. lra. Qed.
Lemma nlt_trans a b c : a <> NaN -> b <> NaN -> c <> NaN -> ext_ltb b a = false -> ext_ltb c b = false -> ext_ltb c a = false.
Proof. intros A B C. destruct a, b, c; cbn; try congruence. rewrite !rltb_false. lra. Qed.
Definition finite_or_inf (l : list stats) : Prop := Forall (fun s => ~ is_nan (s_aicc s)) l.
Lemma insert_sorted x l : ~ is_nan (s_aicc x) -> finite_or_inf l -> StronglySorted below l -> StronglySorted below (insert x l).
Proof.
  intros X N S. induction S as [|y r S IH F]; cbn; [repeat constructor|]. apply Forall_cons_iff in N as (Y & N). specialize (IH N).
  destruct (ext_ltb (s_aicc y) (s_aicc x)) eqn:E.
  - constructor; [exact IH|]. rewrite <- insert_perm. constructor; [|exact F]. unfold below. now apply ltb_asym.
  - constructor; [constructor; auto|]. constructor; [exact E|].
    apply Forall_forall. intros z Z. rewrite Forall_forall in F, N. unfold below in *. eapply nlt_trans; [| | |exact E|apply F, Z]; unfold is_nan in *; auto.
Qed.
Theorem sort_sorted l : finite_or_inf l -> StronglySorted below (sort l).
Proof.
  induction l as [|x r IH]; cbn; intro F; [constructor|]. apply Forall_cons_iff in F as (X & F). apply insert_sorted; auto.
  unfold finite_or_inf. rewrite <- sort_perm. exact F.
Qed.
(** models with equal AICc keep their order *)
Definition same (v : ext) (s : stats) : bool := negb (ext_ltb (s_aicc s) v) && negb (ext_ltb v (s_aicc s)).
Lemma insert_stable v x l : v <> NaN -> ~ is_nan (s_aicc x) -> finite_or_inf l -> filter (same v) (insert x l) = filter (same v) (x :: l).
Proof.
  intros V X. unfold is_nan in X. induction l as [|y r IH]; intro F; [reflexivity|]. apply Forall_cons_iff in F as (Y & F). cbn [insert].
  unfold is_nan in Y. destruct (ext_ltb (s_aicc y) (s_aicc x)) eqn:E; [|reflexivity]. cbn [filter] in *. rewrite IH by auto.
  destruct (same v x) eqn:Sx, (same v y) eqn:Sy; auto. exfalso. unfold same in *. apply andb_true_iff in Sx, Sy. rewrite !negb_true_iff in *.
  destruct (s_aicc x), (s_aicc y), v; cbn in *; try congruence; try (destruct Sx, Sy; congruence).
  rewrite !rltb_false in *. rewrite rltb_true in E. lra.
Qed.
Theorem sort_stable v l : v <> NaN -> finite_or_inf l -> filter (same v) (sort l) = filter (same v) l.
Proof.
  intro V. induction l as [|x r IH]; intro F; [reflexivity|]. apply Forall_cons_iff in F as (X & F). cbn [sort fold_right]. fold (sort r).
  rewrite insert_stable; auto; [cbn [filter]; now rewrite IH|]. unfold finite_or_inf. rewrite <- sort_perm. exact F.
Qed.

(** ** labels *)
Definition name (c : nat) : string := match c with 0 => "AICc Favored Model" | S k => nth k messages "" end.
Lemma climb_le d l : climb d l <= length l.
Proof. induction l as [|x r IH]; cbn [climb length]; auto. destruct (ext_ltb (Fin x) d); lia. Qed.
Lemma climb_skip d l : forall t, t <= climb d l -> t + climb d (skipn t l) = climb d l.
Proof.
  induction l as [|x r IH]; intros [|t] H; cbn [climb skipn] in *; auto; try lia. destruct (ext_ltb (Fin x) d); [|lia]. specialize (IH t). lia.
Qed.
Lemma label_name d : label_of d = name (climb d levels).
Proof.
  unfold label_of, levels. cbn [climb].
  assert (M : forall a b : R, (a < b)%R -> ext_ltb (Fin a) d = false -> ext_ltb (Fin b) d = false).
  { intros a b L. destruct d; cbn; auto. rewrite !rltb_false. lra. }
  destruct (ext_ltb (Fin 0) d) eqn:E0.
  2: { rewrite (M 0 10)%R, (M 0 4)%R, (M 0 2)%R by (auto; lra). reflexivity. }
  destruct (ext_ltb (Fin 2) d) eqn:E2.
  2: { rewrite (M 2 10)%R, (M 2 4)%R by (auto; lra). reflexivity. }
  destruct (ext_ltb (Fin 4) d) eqn:E4.
  2: { rewrite (M 4 10)%R by (auto; lra). reflexivity. }
  destruct (ext_ltb (Fin 10) d); reflexivity.
Qed.
Lemma name_inj a b : a <= 4 -> b <= 4 -> name a = name b -> a = b.
Proof.
  intros A B. do 5 (destruct a as [|a]; [do 5 (destruct b as [|b]; [cbn; intro H; try discriminate; reflexivity|]); lia|]). lia.
Qed.
Lemma climb_mono d e l : (forall x, ext_ltb (Fin x) d = true -> ext_ltb (Fin x) e = true) -> climb d l <= climb e l.
Proof.
  intro H. induction l as [|x r IH]; cbn [climb]; auto. destruct (ext_ltb (Fin x) d) eqn:E; [|lia]. rewrite (H _ E). lia.
Qed.
Lemma sub_mono a b m x : a <> NaN -> b <> NaN -> ext_ltb b a = false -> ext_ltb (Fin x) (ext_sub a m) = true -> ext_ltb (Fin x) (ext_sub b m) = true.
Proof.
  intros A B. unfold ext_sub. destruct a, b, m; cbn; try congruence; try discriminate; auto. rewrite rltb_false, !rltb_true. lra.
Qed.
Lemma sub_self a : climb (ext_sub a a) levels = 0.
Proof.
  unfold ext_sub, levels. destruct a as [x| | |]; cbn; auto. replace (x + - x)%R with 0%R by ring.
  enough (E : rltb 0 0 = false) by now rewrite E. apply rltb_false. lra.
Qed.

Section Rows.
  Variable two_digits : ext -> string.
  Variable ms : list stats.
  Let c (i : nat) : nat := climb (delta ms i) levels.

  Lemma c_zero : c 0 = 0.
  Proof. apply sub_self. Qed.
  Hypothesis mono : forall i, S i < length ms -> c i <= c (S i).
  Hypothesis fine : forall i, i < length ms -> exists t, s_cells (model ms i) = Ok t.

  Lemma c_le i : c i <= 4.
  Proof. exact (climb_le (delta ms i) levels). Qed.
  Lemma group_same i j : group ms i = group ms j <-> c i = c j.
  Proof.
    unfold group. rewrite !label_name. split; [|intro H; unfold c in H; now rewrite H]. apply name_inj; apply c_le.
  Qed.
  Lemma rows_from n : forall i, i + n = length ms ->
    table_rows two_digits (s_aicc (model ms 0)) (skipn i ms) i (c (i - 1)) = Ok (flat_map (spec_row two_digits ms) (seq i n)).
  Proof.
    induction n as [|n IH]; intros i L.
    - rewrite skipn_all2 by lia. reflexivity.
    - assert (Hi : i < length ms) by lia.
      assert (E : skipn i ms = model ms i :: skipn (S i) ms).
      { clear -Hi. unfold model. revert i Hi. induction ms as [|x r IH]; intros i H; [cbn in H; lia|]. destruct i; [reflexivity|]. cbn [skipn nth]. apply IH. cbn in H. lia. }
      rewrite E. cbn [table_rows]. destruct (fine i Hi) as (t & T). rewrite T. cbn [bind]. change (ext_sub (s_aicc (model ms i)) (s_aicc (model ms 0))) with (delta ms i).
      assert (M : c (i - 1) <= c i).
      { destruct i as [|i]; [cbn; lia|]. replace (S i - 1) with i by lia. now apply mono. }
      pose proof (climb_skip (delta ms i) levels (c (i - 1)) M) as K. fold (c i) in K. rewrite K.
      specialize (IH (S i) ltac:(lia)). replace (S i - 1) with i in IH by lia. rewrite IH. cbn [bind seq flat_map].
      unfold spec_row at 2. unfold rule, label, cells. rewrite T. f_equal. rewrite <- app_assoc. cbn [app].
      set (up := climb (delta ms i) (skipn (c (i - 1)) levels)) in *.
      destruct (Nat.eqb_spec i 0) as [->|Ni].
      + cbn in K. unfold up in *. rewrite c_zero in *. cbn [Nat.sub] in *. fold (c 0) in *. rewrite c_zero in *. cbn [skipn] in *. fold (c 0). rewrite c_zero.
        cbn [orb negb andb]. unfold group. rewrite label_name. fold (c 0). rewrite c_zero. cbn. reflexivity.
      + cbn [orb negb andb]. destruct (String.eqb_spec (group ms i) (group ms (i - 1))) as [G|G]; rewrite group_same in G.
        * assert (U : up = 0) by lia. rewrite U. cbn [negb String.eqb orb]. rewrite orb_false_r. reflexivity.
        * destruct up as [|u]; [lia|]. cbn [negb]. unfold group. rewrite label_name. fold (c i).
          assert (C : exists k, c i = S k /\ k < 4). { pose proof (c_le i). destruct (c i) as [|k]; [lia|]. exists k. split; [reflexivity|lia]. }
          destruct C as (k & C & Hk). rewrite C. cbn [name]. replace (S k - 1) with k by lia.
          assert (Q : String.eqb (nth k messages "") "" = false) by (do 4 (destruct k as [|k]; [reflexivity|]); lia).
          rewrite Q. cbn [negb]. rewrite orb_true_r. reflexivity.
  Qed.
End Rows.

Lemma sorted_nth l : StronglySorted below l -> forall i j, i <= j -> j < length l -> i = j \/ below (model l i) (model l j).
Proof.
  unfold model. induction 1 as [|x r S IH F]; intros i j L H; [cbn in H; lia|]. destruct i as [|i], j as [|j]; auto; try lia; cbn [nth].
  - right. rewrite Forall_forall in F. apply F. apply nth_In. cbn in H. lia.
  - destruct (IH i j) as [->|Q]; auto; cbn in H; lia.
Qed.
Lemma model_firstn n l i : i < n -> model (firstn n l) i = model l i.
Proof. unfold model. revert l i. induction n as [|n IH]; intros l i H; [lia|]. destruct l as [|x r]; [now destruct i|]. destruct i; [reflexivity|]. cbn. apply IH. lia. Qed.
Lemma model_in l i : i < length l -> In (model l i) l.
Proof. intro. now apply nth_In. Qed.

Lemma mono_groups l : finite_or_inf l -> StronglySorted below l -> forall i j, i <= j -> j < length l ->
  climb (delta l i) levels <= climb (delta l j) levels.
Proof.
  intros F S i j L H. destruct (sorted_nth l S i j L H) as [->|B]; [lia|]. apply climb_mono. intro x. unfold delta. unfold finite_or_inf in F. rewrite Forall_forall in F.
  apply sub_mono; [apply F, model_in; lia|apply F, model_in; lia|exact B].
Qed.

Section Main.
  Variable two_digits : ext -> string.
  Variable l : list stats.
  Hypothesis nonan : finite_or_inf l.
  Let ms := firstn 50 (sort l).

  Lemma len_sort : length (sort l) = length l.
  Proof. apply Permutation_length. symmetry. apply sort_perm. Qed.
  Lemma len_ms : length ms = shown l.
  Proof. unfold ms, shown. rewrite firstn_length, len_sort. reflexivity. Qed.
  Lemma sorted_ms : finite_or_inf ms /\ StronglySorted below ms.
  Proof.
    assert (S : StronglySorted below (sort l)) by now apply sort_sorted. assert (F : finite_or_inf (sort l)) by (unfold finite_or_inf; rewrite <- sort_perm; exact nonan).
    unfold ms. revert S F. generalize 50. induction (sort l) as [|x r IH]; intros n S F; [destruct n; split; constructor|].
    destruct n as [|n]; [split; constructor|]. cbn [firstn]. inversion S as [|x' r' S' B]; subst. apply Forall_cons_iff in F as (X & F). destruct (IH n S' F) as (A1 & A2).
    split; constructor; auto. apply Forall_forall. intros z Z. rewrite Forall_forall in B. apply B. clear -Z. revert n Z. induction r as [|y r IH]; intros [|n]; cbn; try tauto. intros [->|H]; eauto.
  Qed.
  Theorem table_rows_spec : l <> [] -> (forall i, i < shown l -> exists t, s_cells (model ms i) = Ok t) ->
    tab_comparison two_digits (Some l) = Ok (Some (flat_map (spec_row two_digits ms) (seq 0 (shown l)))).
  Proof.
    intros N C. unfold tab_comparison.
    assert (E : exists s r, sort l = s :: r).
    { pose proof len_sort as Q. destruct (sort l) as [|s r]; [|eauto]. exfalso. apply N. now destruct l. }
    destruct E as (s & r & E). rewrite E. assert (Fn : firstn (if Nat.ltb 50 (length l) then 50 else length l) (s :: r) = ms).
      { unfold ms. rewrite E. destruct (Nat.ltb_spec 50 (length l)) as [|H]; [reflexivity|]. rewrite !firstn_all2; auto; rewrite <- E, len_sort; lia. }
      rewrite Fn. assert (M0 : s_aicc s = s_aicc (model ms 0)) by (unfold ms; rewrite E; reflexivity). rewrite M0.
      destruct sorted_ms as (F & S).
      pose proof (rows_from two_digits ms) as R. cbn zeta in R. specialize (R (fun i H => mono_groups ms F S i (Datatypes.S i) ltac:(lia) H)).
      rewrite len_ms in R. specialize (R C (shown l) 0 eq_refl). cbn [skipn] in R. replace (climb (delta ms (0 - 1)) levels) with 0 in R by (symmetry; apply sub_self).
      rewrite R. reflexivity.
  Qed.
  (** groups are contiguous and in the order of the labels *)
  Theorem groups_contiguous i j k : i <= j -> j <= k -> k < shown l -> group ms i = group ms k -> group ms j = group ms i.
  Proof.
    intros A B K G. destruct sorted_ms as (F & S). pose proof (mono_groups ms F S i j) as M1. pose proof (mono_groups ms F S j k) as M2. rewrite len_ms in *.
    apply (group_same ms) in G. apply (group_same ms). cbn in *. specialize (M1 A ltac:(lia)). specialize (M2 B K). lia.
  Qed.
  (** the label last written at or above a model is that of its group *)
  Theorem label_read i : i < shown l -> exists j, j <= i /\ label ms j = group ms i /\ label ms j <> "" /\ forall k, j < k -> k <= i -> label ms k = "".
  Proof.
    assert (Ne : forall q, group ms q <> "").
    { intro q. unfold group. rewrite label_name. pose proof (climb_le (delta ms q) levels) as Q. cbn [levels length] in Q.
      destruct (climb (delta ms q) levels) as [|k]; [discriminate|]. do 4 (destruct k as [|k]; [discriminate|]). lia. }
    induction i as [|i IH]; intro H.
    - exists 0. unfold label. cbn [Nat.eqb orb]. split; [lia|]. split; [reflexivity|]. split; [apply Ne|]. lia.
    - destruct (String.eqb_spec (group ms (S i)) (group ms i)) as [G|G].
      + destruct IH as (j & A & B & C & D); [lia|]. exists j. split; [lia|]. split; [congruence|]. split; [auto|]. intros k K1 K2.
        destruct (Nat.eq_dec k (S i)) as [->|]; [|apply D; lia]. unfold label. cbn [Nat.eqb orb]. replace (S i - 1) with i by lia. apply String.eqb_eq in G. now rewrite G.
      + exists (S i). split; [lia|]. assert (E : label ms (S i) = group ms (S i)).
        { unfold label. cbn [Nat.eqb orb]. replace (S i - 1) with i by lia. apply String.eqb_neq in G. now rewrite G. }
        rewrite E. split; [reflexivity|]. split; [apply Ne|]. lia.
  Qed.
End Main.

(** the thresholds for finite values *)
Theorem label_thresholds x :
  (label_of (Fin x) = "AICc Favored Model" <-> x <= 0)%R /\
  (label_of (Fin x) = "Nearly Indistinguishable" <-> 0 < x <= 2)%R /\
  (label_of (Fin x) = "Somewhat Disfavored" <-> 2 < x <= 4)%R /\
  (label_of (Fin x) = "Strongly Disfavored" <-> 4 < x <= 10)%R /\
  (label_of (Fin x) = "Ruled Out" <-> 10 < x)%R.
Proof.
  unfold label_of. cbn [ext_ltb].
  assert (D : forall a b, rltb a b = true /\ (a < b)%R \/ rltb a b = false /\ (b <= a)%R).
  { intros a b. destruct (rltb a b) eqn:E; [left|right]; split; auto; [now apply rltb_true|apply rltb_false in E; lra]. }
  destruct (D 10%R x) as [(-> & H1)|(-> & H1)]; [repeat split; intros; try discriminate; lra|].
  destruct (D 4%R x) as [(-> & H2)|(-> & H2)]; [repeat split; intros; try discriminate; try lra; reflexivity|].
  destruct (D 2%R x) as [(-> & H3)|(-> & H3)]; [repeat split; intros; try discriminate; try lra; reflexivity|].
  destruct (D 0%R x) as [(-> & H4)|(-> & H4)]; repeat split; intros; try discriminate; try lra; reflexivity.
Qed.

(** an entry that cannot be formatted *)
Lemma table_rows_raises td low l i t e : (exists a s b, l = (a ++ s :: b)%list /\ Forall (fun x => exists c, s_cells x = Ok c) a /\ s_cells s = Err e) ->
  table_rows td low l i t = Err e.
Proof.
  intros (a & s & b & -> & F & E). revert i t. induction F as [|x a (c & X) F IH]; intros i t; cbn [app table_rows].
  - now rewrite E.
  - rewrite X. cbn [bind]. now rewrite IH.
Qed.
Theorem table_raises td l a s b e : firstn 50 (sort l) = (a ++ s :: b)%list -> Forall (fun x => exists c, s_cells x = Ok c) a -> s_cells s = Err e ->
  tab_comparison td (Some l) = Err e.
Proof.
  intros E F C. unfold tab_comparison. destruct (sort l) as [|x r] eqn:S; [destruct a; discriminate|].
  assert (L : length l = length (x :: r)) by (rewrite <- S; apply Permutation_length, sort_perm).
  assert (Fn : firstn (if Nat.ltb 50 (length l) then 50 else length l) (x :: r) = (a ++ s :: b)%list).
  { rewrite <- E. destruct (Nat.ltb_spec 50 (length l)) as [|H]; [reflexivity|]. rewrite !firstn_all2; auto; lia. }
  rewrite Fn, (table_rows_raises td _ _ _ _ e); [reflexivity|]. exists a, s, b. auto.
Qed.
Theorem table_empty td : tab_comparison td None = Ok None /\ tab_comparison td (Some []) = Ok None.
Proof. split; reflexivity. Qed.

(** more than fifty models: some are left out *)
Theorem table_omits l : NoDup l -> 50 < length l -> exists s, In s l /\ ~ In s (firstn 50 (sort l)).
Proof.
  intros D L. pose proof (sort_perm l) as P. pose proof (Permutation_length P) as Q. pose proof (Permutation_NoDup P D) as D'.
  rewrite <- (firstn_skipn 50 (sort l)) in D'. destruct (skipn 50 (sort l)) as [|s r] eqn:E.
  - pose proof (f_equal (@length stats) E) as H. rewrite skipn_length in H. cbn in H. lia.
  - exists s. split.
    + apply (Permutation_in s (Permutation_sym P)). rewrite <- (firstn_skipn 50 (sort l)), E. apply in_or_app. right. now left.
    + intro I. apply NoDup_remove_2 in D'. apply D'. apply in_or_app. now left.
Qed.
Lemma table_formattable l : finite_or_inf l -> l <> [] -> Forall (fun s => exists t, s_cells s = Ok t) l -> forall td,
  tab_comparison td (Some l) = Ok (Some (flat_map (spec_row td (firstn 50 (sort l))) (seq 0 (shown l)))).
Proof.
  intros F N C td. apply (table_rows_spec td l F N). intros i Hi. rewrite Forall_forall in C. apply C.
  apply (Permutation_in _ (Permutation_sym (sort_perm l))).
  assert (J : In (model (firstn 50 (sort l)) i) (firstn 50 (sort l))) by (apply model_in; pose proof (len_ms l) as Q; cbn zeta in Q; now rewrite Q).
  pose proof (firstn_skipn 50 (sort l)) as Q. revert J. generalize (model (firstn 50 (sort l)) i). intros m J. rewrite <- Q. apply in_or_app. now left.
Qed.
Lemma omits_any l : NoDup l -> shown l = 50 -> 50 < length l -> Forall (fun s => exists x, s_aicc s = Fin x) l -> Forall (fun s => exists t, s_cells s = Ok t) l ->
  exists l s, finite_or_inf l /\ (exists x, s_aicc s = Fin x) /\ In s l /\ ~ In s (firstn 50 (sort l)) /\
  forall td, tab_comparison td (Some l) = Ok (Some (flat_map (spec_row td (firstn 50 (sort l))) (seq 0 50))).
Proof.
  intros D E L F C. destruct (table_omits l D L) as (s & I & N). exists l, s.
  assert (F' : finite_or_inf l) by (eapply Forall_impl; [|exact F]; intros a (x & ->); discriminate).
  split; [exact F'|]. split; [rewrite Forall_forall in F; now apply F|]. split; [exact I|]. split; [exact N|].
  intro td. pose proof (fun Ne => table_formattable l F' Ne C td) as Q. rewrite E in Q. apply Q. intros ->. cbn in L. lia.
Qed.
Definition many : list stats := map (fun i => mkStats (Fin (INR i)) (Ok "x")) (seq 0 51).
Theorem table_omits_refuted : exists l s, finite_or_inf l /\ (exists x, s_aicc s = Fin x) /\ In s l /\ ~ In s (firstn 50 (sort l)) /\
  forall td, tab_comparison td (Some l) = Ok (Some (flat_map (spec_row td (firstn 50 (sort l))) (seq 0 50))).
Proof.
  assert (Ln : length many = 51) by (unfold many; now rewrite map_length, seq_length).
  apply (omits_any many); [|unfold shown; rewrite Ln; reflexivity|rewrite Ln; lia| |].
  - unfold many. apply FinFun.Injective_map_NoDup; [|apply seq_NoDup]. intros a b H. injection H as Q. now apply INR_eq.
  - apply Forall_forall. intros s S. apply in_map_iff in S as (i & <- & _). eexists. reflexivity.
  - apply Forall_forall. intros s S. apply in_map_iff in S as (i & <- & _). eexists. reflexivity.
Qed.
