From Coq Require Import Reals List Bool ZArith Lra Lia Psatz.
From Verif Require Import Py PyFacts Kepler.
Import ListNotations.
Open Scope R_scope.

(** ** Kepler's equation: monotonicity, existence, uniqueness *)

Lemma sin_lipschitz_lt a b : a < b -> Rabs (sin b - sin a) <= b - a.
Proof.
  intro H.
  destruct (MVT_cor2 sin cos a b H) as [c [Hc _]].
  { intros. apply derivable_pt_lim_sin. }
  rewrite Hc, Rabs_mult, (Rabs_pos_eq (b - a)) by lra.
  assert (Rabs (cos c) <= 1) by (apply Rabs_le; apply COS_bound).
  nra.
Qed.

Lemma sin_lipschitz a b : Rabs (sin b - sin a) <= Rabs (b - a).
Proof.
  destruct (Rtotal_order a b) as [H|[H|H]].
  - rewrite (Rabs_pos_eq (b - a)) by lra. now apply sin_lipschitz_lt.
  - subst. rewrite !Rminus_eq_0. lra.
  - rewrite (Rabs_minus_sym (sin b)), (Rabs_minus_sym b).
    rewrite (Rabs_pos_eq (a - b)) by lra. now apply sin_lipschitz_lt.
Qed.

Lemma kepler_lower e E1 E2 : 0 <= e < 1 ->
  (1 - e) * Rabs (E2 - E1) <= Rabs ((E2 - e * sin E2) - (E1 - e * sin E1)).
Proof.
  intros He.
  pose proof (sin_lipschitz E1 E2) as H.
  replace ((E2 - e * sin E2) - (E1 - e * sin E1))
    with ((E2 - E1) - e * (sin E2 - sin E1)) by ring.
  pose proof (Rabs_triang_inv (E2 - E1) (e * (sin E2 - sin E1))) as H1.
  rewrite Rabs_mult, (Rabs_pos_eq e) in H1 by lra.
  nra.
Qed.

Lemma kepler_unique e E1 E2 M : 0 <= e < 1 ->
  E1 - e * sin E1 = M -> E2 - e * sin E2 = M -> E1 = E2.
Proof.
  intros He H1 H2.
  pose proof (kepler_lower e E1 E2 He) as H.
  rewrite H1, H2, Rminus_eq_0, Rabs_R0 in H.
  pose proof (Rabs_pos (E2 - E1)).
  assert (Rabs (E2 - E1) = 0) by nra.
  destruct (Req_dec (E2 - E1) 0); [lra|].
  exfalso; now apply (Rabs_no_R0 (E2 - E1)).
Qed.

Lemma kepler_exists e M : 0 <= e < 1 -> exists E, E - e * sin E = M.
Proof.
  intro He.
  destruct (IVT (fun E => E - e * sin E - M) (M - 2) (M + 2)) as [z [_ Hz]].
  - apply continuity_minus; [apply continuity_minus|].
    + apply derivable_continuous, derivable_id.
    + apply continuity_mult; [apply continuity_const; now intros ? ?|apply continuity_sin].
    + apply continuity_const; now intros ? ?.
  - lra.
  - pose proof (SIN_bound (M - 2)). nra.
  - pose proof (SIN_bound (M + 2)). nra.
  - exists z. lra.
Qed.

Lemma kepler_accuracy e M E Es tol : 0 <= e < 1 ->
  Rabs (kepler_fi M e E) <= tol -> Es - e * sin Es = M ->
  Rabs (E - Es) <= tol / (1 - e).
Proof.
  intros He Hf Hs. unfold kepler_fi in Hf.
  pose proof (kepler_lower e Es E He) as H.
  rewrite Hs in H.
  apply Rmult_le_reg_l with (1 - e); [lra|].
  replace ((1 - e) * (tol / (1 - e))) with tol by (field; lra).
  lra.
Qed.

Lemma unconverged_false f : unconverged f = false <-> Rabs f <= conv_tol.
Proof. unfold unconverged. apply rltb_false. Qed.
Lemma unconverged_true f : unconverged f = true <-> conv_tol < Rabs f.
Proof. unfold unconverged. apply rltb_true. Qed.

(** ** The C loop *)

Lemma c_kepler_loop_conv n : forall M e E E', n <> O ->
  c_kepler_loop n M e E = Ok E' -> Rabs (kepler_fi M e E') <= conv_tol.
Proof.
  induction n as [|n IH]; intros M e E E' Hn H; [congruence|].
  cbn in H. destruct (unconverged (kepler_fi M e E)) eqn:U.
  - destruct n as [|n]; [discriminate|]. apply IH in H; auto.
  - inversion H; subst. now apply unconverged_false.
Qed.

Lemma c_kepler_conv M e E : c_kepler M e = Ok E -> Rabs (kepler_fi M e E) <= conv_tol.
Proof. apply c_kepler_loop_conv. discriminate. Qed.

(** the C loop is an iterate of the Danby map, at most 29 times *)
Fixpoint iter_danby (n : nat) (M e E : R) : R :=
  match n with O => E | S m => iter_danby m M e (danby e E (kepler_fi M e E)) end.

Lemma c_kepler_loop_iter n : forall M e E E',
  c_kepler_loop n M e E = Ok E' -> exists j, (j < n \/ n = O /\ j = O)%nat /\ E' = iter_danby j M e E.
Proof.
  induction n as [|n IH]; intros M e E E' H; cbn in H.
  - inversion H. exists O. auto.
  - destruct (unconverged (kepler_fi M e E)).
    + destruct n as [|n]; [discriminate|]. apply IH in H.
      destruct H as [j [Hj ->]]. exists (S j). split; [lia|reflexivity].
    + inversion H; subst. exists O. split; [lia|reflexivity].
Qed.

(** ** The vectorised Python loop *)

(** scalar reference loop: iterate the Danby correction until converged *)
Fixpoint solve1_loop (fuel : nat) (M e E : R) : option R :=
  match fuel with
  | O => None
  | S n => if unconverged (kepler_fi M e E)
           then solve1_loop n M e (danby e E (kepler_fi M e E)) else Some E
  end.

Lemma solve1_loop_conv n : forall M e E E', solve1_loop n M e E = Some E' ->
  Rabs (kepler_fi M e E') <= conv_tol.
Proof.
  induction n as [|n IH]; intros M e E E'; cbn; [easy|].
  destruct (unconverged (kepler_fi M e E)) eqn:U; [apply IH|].
  intro H; inversion H; subst. now apply unconverged_false.
Qed.

Lemma solve1_loop_mono n : forall m M e E E', (n <= m)%nat ->
  solve1_loop n M e E = Some E' -> solve1_loop m M e E = Some E'.
Proof.
  induction n as [|n IH]; intros m M e E E' Hm; cbn; [easy|].
  destruct m as [|m]; [lia|]. cbn.
  destruct (unconverged (kepler_fi M e E)); auto. apply IH. lia.
Qed.

(** masked update = pointwise conditional update *)
Definition upd1 (e E M : R) : R :=
  let f := kepler_fi M e E in if unconverged f then danby e E f else E.

Lemma round_pointwise : forall Ms es Es,
  length es = length Ms -> length Es = length Ms ->
  let fs := map3 kepler_fi Ms es Es in
  let mask := map unconverged fs in
  scatter mask Es (map3 danby (gather mask es) (gather mask Es) (gather mask fs)) =
  map3 upd1 es Es Ms.
Proof.
  induction Ms as [|M Ms IH]; intros [|e es] [|E Es]; cbn; try discriminate; auto.
  intros H1 H2. injection H1; injection H2; intros.
  unfold upd1 at 1. destruct (unconverged (kepler_fi M e E)); cbn; f_equal; auto; apply IH; auto.
Qed.

Lemma map3_length {A B C D} (f : A -> B -> C -> D) : forall a b c,
  length b = length a -> length c = length a -> length (map3 f a b c) = length a.
Proof. induction a; intros [|] [|]; cbn; try discriminate; auto. Qed.
Lemma map2_length {A B C} (f : A -> B -> C) : forall a b,
  length b = length a -> length (map2 f a b) = length a.
Proof. induction a; intros [|]; cbn; try discriminate; auto. Qed.

Lemma nth_error_map3 {A B C D} (f : A -> B -> C -> D) : forall a b c i x y z,
  nth_error a i = Some x -> nth_error b i = Some y -> nth_error c i = Some z ->
  nth_error (map3 f a b c) i = Some (f x y z).
Proof.
  induction a; intros [|] [|] [|i]; cbn; try discriminate; intros; auto; congruence.
Qed.
Lemma nth_error_map2 {A B C} (f : A -> B -> C) : forall a b i x y,
  nth_error a i = Some x -> nth_error b i = Some y ->
  nth_error (map2 f a b) i = Some (f x y).
Proof. induction a; intros [|] [|i]; cbn; try discriminate; intros; auto; congruence. Qed.

Lemma existsb_id_false l : existsb (fun b : bool => b) l = false -> forall i b, nth_error l i = Some b -> b = false.
Proof.
  induction l as [|x l IH]; cbn; intros H [|i] b Hi; cbn in Hi; try discriminate.
  - inversion Hi; subst. now apply orb_false_iff in H as [? _].
  - apply IH with i; auto. now apply orb_false_iff in H as [_ ?].
Qed.

Lemma kepler_loop_pointwise n : forall Ms es Es Es',
  length es = length Ms -> length Es = length Ms ->
  kepler_loop n Ms es Es (map3 kepler_fi Ms es Es)
     (map unconverged (map3 kepler_fi Ms es Es)) = Ok Es' ->
  length Es' = length Ms /\
  forall i M e E, nth_error Ms i = Some M -> nth_error es i = Some e -> nth_error Es i = Some E ->
    exists E', solve1_loop n M e E = Some E' /\ nth_error Es' i = Some E'.
Proof.
  induction n as [|n IH]; intros Ms es Es Es' L1 L2 H; cbn in H; [discriminate|].
  destruct (existsb _ _) eqn:X in H.
  - rewrite round_pointwise in H by assumption.
    assert (L3 : length (map3 upd1 es Es Ms) = length Ms).
    { rewrite map3_length; lia. }
    destruct (IH _ _ _ _ L1 L3 H) as [HL Hi]. split; auto.
    intros i M e E HM He HE. cbn.
    assert (Hu := nth_error_map3 upd1 _ _ _ _ _ _ _ He HE HM).
    destruct (Hi i M e _ HM He Hu) as [E' [H1 H2]]. exists E'. split; auto.
    unfold upd1 in H1. destruct (unconverged (kepler_fi M e E)) eqn:U; auto.
    destruct n; cbn in H1; [discriminate|]. rewrite U in H1. exact H1.
  - inversion H; subst. split; auto. intros i M e E HM He HE.
    exists E. split; auto. cbn.
    assert (Hf := nth_error_map3 kepler_fi _ _ _ _ _ _ _ HM He HE).
    apply (map_nth_error unconverged) in Hf.
    now rewrite (existsb_id_false _ X _ _ Hf).
Qed.

Lemma nth_error_ex {A B} (l : list A) (l' : list B) i x :
  length l' = length l -> nth_error l i = Some x -> exists y, nth_error l' i = Some y.
Proof.
  intros L H. destruct (nth_error l' i) eqn:E; eauto.
  apply nth_error_None in E. assert (i < length l)%nat by (apply nth_error_Some; congruence). lia.
Qed.

Lemma kepler_pointwise fuel Ms es v :
  length es = length Ms -> kepler fuel Ms es = Ok v ->
  length (npelems v) = length Ms /\
  forall i M e, nth_error Ms i = Some M -> nth_error es i = Some e ->
    exists E, solve1_loop fuel M e (py_guess M e) = Some E /\ nth_error (npelems v) i = Some E.
Proof.
  intros L H. unfold kepler in H.
  assert (L2 : length (map2 py_guess Ms es) = length Ms) by (now apply map2_length).
  destruct (kepler_loop _ _ _ _ _ _) as [Es'|] eqn:K in H; cbn in H; [|discriminate].
  apply kepler_loop_pointwise in K; auto. destruct K as [HL Hi].
  assert (HV : npelems v = Es').
  { destruct Es' as [|x [|y Es']]; inversion H; reflexivity. }
  rewrite HV. split; auto. intros i M e HM He.
  apply (Hi i M e); auto. now apply nth_error_map2.
Qed.

(** if every element's scalar loop ends within [fuel], so does the vector loop *)
Lemma kepler_loop_total n : forall Ms es Es,
  length es = length Ms -> length Es = length Ms ->
  (forall i M e E, nth_error Ms i = Some M -> nth_error es i = Some e -> nth_error Es i = Some E ->
    exists E', solve1_loop (S n) M e E = Some E') ->
  exists Es', kepler_loop (S n) Ms es Es (map3 kepler_fi Ms es Es)
     (map unconverged (map3 kepler_fi Ms es Es)) = Ok Es'.
Proof.
  induction n as [|n IH]; intros Ms es Es L1 L2 H.
  - cbn. destruct (existsb _ _) eqn:X; [|eauto]. exfalso.
    apply existsb_exists in X as [b [Hb Htrue]]. apply In_nth_error in Hb as [i Hi].
    rewrite nth_error_map in Hi. destruct (nth_error (map3 kepler_fi Ms es Es) i) as [f|] eqn:Ef; [|discriminate].
    assert (Hl : (i < length Ms)%nat).
    { rewrite <- (map3_length kepler_fi Ms es Es) by assumption. apply nth_error_Some. congruence. }
    destruct (nth_error Ms i) as [M|] eqn:EM; [|now apply nth_error_None in EM; lia].
    destruct (nth_error_ex Ms es i M L1 EM) as [e Ee].
    destruct (nth_error_ex Ms Es i M L2 EM) as [E EE].
    rewrite (nth_error_map3 kepler_fi _ _ _ _ _ _ _ EM Ee EE) in Ef.
    destruct (H i M e E EM Ee EE) as [E' HE']. cbn in HE'.
    inversion Ef; subst. cbn in Hi. injection Hi as Hi. rewrite Hi in HE'. discriminate.
  - remember (S n) as m. cbn [kepler_loop]. destruct (existsb _ _) eqn:X; [|eauto].
    rewrite round_pointwise by assumption. rewrite Heqm in *.
    apply IH; auto. { rewrite map3_length; lia. }
    intros i M e E HM He HE.
    destruct (nth_error_ex Ms Es i M L2 HM) as [E0 HE0].
    rewrite (nth_error_map3 upd1 _ _ _ _ _ _ _ He HE0 HM) in HE. inversion HE.
    destruct (H i M e E0 HM He HE0) as [E' HE']. exists E'.
    unfold upd1. remember (S n) as k. cbn in HE'.
    destruct (unconverged (kepler_fi M e E0)) eqn:U; auto.
    subst k. cbn. now rewrite U.
Qed.

Lemma kepler_total fuel Ms es :
  length es = length Ms -> Ms <> [] ->
  (forall i M e, nth_error Ms i = Some M -> nth_error es i = Some e ->
    exists E, solve1_loop (S fuel) M e (py_guess M e) = Some E) ->
  exists v, kepler (S fuel) Ms es = Ok v.
Proof.
  intros L HN H. unfold kepler.
  assert (L2 : length (map2 py_guess Ms es) = length Ms) by (now apply map2_length).
  destruct (kepler_loop_total fuel Ms es (map2 py_guess Ms es)) as [Es' HE]; auto.
  { intros i M e E HM He HE. rewrite (nth_error_map2 py_guess _ _ _ _ _ HM He) in HE.
    inversion HE; subst. eauto. }
  rewrite HE. cbn [bind]. apply kepler_loop_pointwise in HE; auto. destruct HE as [HL _].
  destruct Es' as [|x [|y Es']]; cbn in HL; eauto.
  destruct Ms; [congruence|discriminate].
Qed.

Lemma kepler_empty fuel : kepler (S fuel) [] [] = Err IndexError.
Proof. reflexivity. Qed.

Lemma kepler_array_single fuel Ms es v :
  length es = length Ms -> kepler fuel Ms es = Ok v ->
  forall i M e, nth_error Ms i = Some M -> nth_error es i = Some e ->
    exists E, kepler fuel [M] [e] = Ok (Scal E) /\ nth_error (npelems v) i = Some E.
Proof.
  intros L H i M e HM He.
  destruct (proj2 (kepler_pointwise fuel Ms es v L H) i M e HM He) as [E [HS HN]].
  exists E. split; auto.
  destruct fuel as [|fuel]; [discriminate|].
  destruct (kepler_total fuel [M] [e]) as [w Hw]; auto; try discriminate.
  { intros [|[|j]] M' e' HM' He'; cbn in HM', He'; try discriminate.
    inversion HM'; inversion He'; subst. eauto. }
  rewrite Hw. destruct (kepler_pointwise (S fuel) [M] [e] w eq_refl Hw) as [LW HW].
  destruct (HW O M e eq_refl eq_refl) as [E' [HS' HN']].
  rewrite HS in HS'. inversion HS'; subst E'.
  unfold kepler in Hw.
  destruct (kepler_loop _ _ _ _ _ _) as [[|x [|y r]]|]; cbn in Hw; try discriminate; inversion Hw; subst; cbn in *.
  - inversion HN'; reflexivity.
  - discriminate LW.
Qed.

Lemma python_solver_accurate fuel Ms es v :
  length es = length Ms -> kepler fuel Ms es = Ok v ->
  forall i M e Es, nth_error Ms i = Some M -> nth_error es i = Some e -> 0 <= e < 1 ->
    Es - e * sin Es = M ->
    exists E, nth_error (npelems v) i = Some E /\ Rabs (E - Es) <= conv_tol / (1 - e).
Proof.
  intros L H i M e Es HM He Hr HE.
  destruct (proj2 (kepler_pointwise fuel Ms es v L H) i M e HM He) as [E [HS HN]].
  exists E. split; auto. eapply kepler_accuracy; eauto using solve1_loop_conv.
Qed.

Opaque c_kepler_loop iter_danby.
Lemma c_kepler_iter M e E : c_kepler M e = Ok E ->
  exists j, (j < 30)%nat /\ E = iter_danby j M e (c_guess M e).
Proof.
  unfold c_kepler. generalize (c_guess M e). intros E0 H.
  destruct (c_kepler_loop_iter MAX_ITER M e E0 E H) as [j [Hj HE]].
  exists j. split; [|exact HE]. destruct Hj as [Hj|[Hj _]]; [exact Hj|discriminate Hj].
Qed.
