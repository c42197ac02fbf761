From Coq Require Import Reals List Bool ZArith Lra Lia Psatz.
From Verif Require Import Py PyFacts Kepler KeplerProofs KeplerSpec TrigFacts.
Import ListNotations.
Open Scope R_scope.

(** ** floor and mean anomaly *)
Lemma Int_part_IZR_add x (n : Z) : Int_part (x + IZR n) = (Int_part x + n)%Z.
Proof.
  unfold Int_part.
  assert (H : up (x + IZR n) = (up x + n)%Z).
  { symmetry. destruct (archimed x) as [H1 H2]. apply tech_up; rewrite plus_IZR; lra. }
  rewrite H. lia.
Qed.

Lemma np_floor_add_Z x n : np_floor (x + IZR n) = np_floor x + IZR n.
Proof. unfold np_floor. rewrite Int_part_IZR_add, plus_IZR. reflexivity. Qed.

Lemma np_floor_bounds x : np_floor x <= x < np_floor x + 1.
Proof. unfold np_floor. destruct (base_Int_part x). lra. Qed.

Lemma mean_anomaly_range per tp t : 0 <= mean_anomaly per tp t < 2 * PI.
Proof.
  unfold mean_anomaly. pose proof (np_floor_bounds ((t - tp) / per)). pose proof PI_RGT_0. nra.
Qed.

Lemma mean_anomaly_period per tp t (n : Z) : per <> 0 ->
  mean_anomaly per tp (t + IZR n * per) = mean_anomaly per tp t.
Proof.
  intro H. unfold mean_anomaly.
  replace ((t + IZR n * per - tp) / per) with ((t - tp) / per + IZR n) by (field; auto).
  rewrite np_floor_add_Z. ring.
Qed.

Lemma mean_anomaly_tp per tp t (n : Z) : per <> 0 ->
  mean_anomaly per (tp + IZR n * per) t = mean_anomaly per tp t.
Proof.
  intro H. unfold mean_anomaly.
  replace ((t - (tp + IZR n * per)) / per) with ((t - tp) / per + IZR (- n)) by (rewrite opp_IZR; field; auto).
  rewrite np_floor_add_Z. ring.
Qed.

Lemma mean_anomaly_unreduced per tp t :
  exists n, 2 * PI * (t - tp) / per = mean_anomaly per tp t + 2 * IZR n * PI.
Proof.
  exists (Int_part ((t - tp) / per)). unfold mean_anomaly, np_floor. unfold Rdiv. ring.
Qed.

(** ** the specification is a function *)
Lemma ecc_anomaly_shift e M E n : is_ecc_anomaly e M E ->
  is_ecc_anomaly e (M + 2 * IZR n * PI) (E + 2 * IZR n * PI).
Proof. unfold is_ecc_anomaly. intro H. rewrite sin_Zperiod. lra. Qed.

Lemma V_shift e om k E n : V e om k (E + 2 * IZR n * PI) = V e om k E.
Proof. unfold V. now rewrite cos_Zperiod, sin_Zperiod. Qed.

Lemma is_rv_V per tp e om k t v : 0 <= e < 1 ->
  (is_rv per tp e om k t v <->
   exists E, is_ecc_anomaly e (mean_anomaly per tp t) E /\ v = V e om k E).
Proof.
  intro He. destruct (mean_anomaly_unreduced per tp t) as [n Hn].
  unfold is_rv, is_true_anomaly_at. rewrite Hn. split.
  - intros [nu [[E [HE Hnu]] ->]]. exists (E + 2 * IZR (- n) * PI). split.
    + replace (mean_anomaly per tp t) with (mean_anomaly per tp t + 2 * IZR n * PI + 2 * IZR (- n) * PI) by (rewrite opp_IZR; ring).
      now apply ecc_anomaly_shift.
    + rewrite V_shift. now apply V_true_anomaly.
  - intros [E [HE ->]]. destruct (true_anomaly_exists e E He) as [nu Hnu].
    exists nu. split.
    + exists (E + 2 * IZR n * PI). split; [now apply ecc_anomaly_shift|].
      unfold is_true_anomaly in *. now rewrite cos_Zperiod, sin_Zperiod.
    + symmetry. now apply V_true_anomaly.
Qed.

Lemma is_rv_unique per tp e om k t v v' : 0 <= e < 1 ->
  is_rv per tp e om k t v -> is_rv per tp e om k t v' -> v = v'.
Proof.
  intro He. rewrite !is_rv_V by assumption.
  intros [E [HE ->]] [E' [HE' ->]]. f_equal. eapply kepler_unique; eauto.
Qed.

Lemma is_rv_exists per tp e om k t : 0 <= e < 1 -> exists v, is_rv per tp e om k t v.
Proof.
  intro He. destruct (kepler_exists e (mean_anomaly per tp t) He) as [E HE].
  exists (V e om k E). apply is_rv_V; eauto.
Qed.

(** ** numpy formula and C formula *)
Lemma c_rv_eq_py e om k E :
  c_rv_of_E e (cos om) (sin om) k E = py_rv_of_nu e om k (nu_of_E e E).
Proof.
  unfold c_rv_of_E, py_rv_of_nu, nu_of_E. rewrite cos_plus, cos_2atan, sin_2atan.
  set (T := half_tan e E). f_equal. f_equal. field. nra.
Qed.

Lemma py_rv_exact e om k E : 0 <= e < 1 -> cos (E / 2) <> 0 ->
  py_rv_of_nu e om k (nu_of_E e E) = V e om k E.
Proof. intros He Hc. unfold py_rv_of_nu. apply V_true_anomaly. now apply nu_of_E_correct. Qed.

Lemma pole_values E : cos (E / 2) = 0 -> cos E = -1 /\ sin E = 0.
Proof.
  intro H. replace E with (2 * (E / 2)) at 1 2 by field.
  rewrite cos_2a_cos, sin_2a, H. split; ring.
Qed.

Lemma py_rv_pole e om k E : 0 <= e < 1 -> cos (E / 2) = 0 ->
  Rabs (py_rv_of_nu e om k (nu_of_E e E) - V e om k E) <= Rabs k * / 10 ^ 15.
Proof.
  intros He Hc. destruct (pole_values E Hc) as [HcE HsE].
  unfold V. rewrite HcE, HsE. unfold py_rv_of_nu, nu_of_E.
  rewrite cos_plus, cos_2atan, sin_2atan.
  assert (HT : HUGE <= half_tan e E).
  { unfold half_tan. rewrite (np_tan_pole _ Hc).
    assert (1 <= sqrt ((1 + e) / (1 - e))).
    { replace 1 with (sqrt 1) at 1 by apply sqrt_1. apply sqrt_le_1_alt.
      apply Rmult_le_reg_r with (1 - e); [lra|]. unfold Rdiv. rewrite Rmult_assoc, Rinv_l by lra. lra. }
    unfold HUGE. lra. }
  set (T := half_tan e E) in *.
  assert (HT0 : 10 ^ 16 <= T) by (unfold HUGE in HT; lra).
  set (A := (1 - T * T) / (1 + T * T) + 1).
  set (B := 2 * T / (1 + T * T)).
  replace (k * ((1 - T * T) / (1 + T * T) * cos om - B * sin om + e * cos om) -
     k * ((-1 - e) / (1 - e * -1) * cos om - sqrt (1 - e * e) * 0 / (1 - e * -1) * sin om + e * cos om))
    with (k * (A * cos om - B * sin om)).
  2:{ unfold A. field. split; nra. }
  rewrite Rabs_mult. apply Rmult_le_compat_l; [apply Rabs_pos|].
  assert (HA : 0 <= A <= / 10 ^ 16).
  { unfold A. replace ((1 - T * T) / (1 + T * T) + 1) with (2 / (1 + T * T)) by (field; nra).
    split; [apply Rlt_le, Rdiv_lt_0_compat; nra|].
    apply Rmult_le_reg_r with (1 + T * T); [nra|].
    unfold Rdiv. rewrite Rmult_assoc, Rinv_l by nra.
    apply Rmult_le_reg_l with (10 ^ 16); [lra|].
    replace (10 ^ 16 * (/ 10 ^ 16 * (1 + T * T))) with (1 + T * T) by (field; lra). nra. }
  assert (HB : 0 <= B <= 2 * / 10 ^ 16).
  { unfold B. split; [apply Rlt_le, Rdiv_lt_0_compat; nra|].
    apply Rmult_le_reg_r with (1 + T * T); [nra|].
    unfold Rdiv. rewrite Rmult_assoc, Rinv_l by nra.
    apply Rmult_le_reg_l with (10 ^ 16); [lra|].
    replace (10 ^ 16 * (2 * / 10 ^ 16 * (1 + T * T))) with (2 * (1 + T * T)) by (field; lra). nra. }
  pose proof (COS_bound om). pose proof (SIN_bound om).
  apply Rabs_le. split; nra.
Qed.

Lemma py_rv_any e om k E : 0 <= e < 1 ->
  Rabs (py_rv_of_nu e om k (nu_of_E e E) - V e om k E) <= Rabs k * / 10 ^ 15.
Proof.
  intro He. destruct (Req_EM_T (cos (E / 2)) 0) as [H|H].
  - now apply py_rv_pole.
  - rewrite py_rv_exact by assumption. rewrite Rminus_eq_0, Rabs_R0.
    pose proof (Rabs_pos k). assert (0 < / 10 ^ 15) by (apply Rinv_0_lt_compat; lra). nra.
Qed.

Definition rv_err (e k : R) : R :=
  Rabs k * (sqrt ((1 + e) / (1 - e)) * (conv_tol / (1 - e)) + / 10 ^ 15).

Lemma rv_of_converged per tp e om k t E v :
  0 <= e < 1 -> Rabs (kepler_fi (mean_anomaly per tp t) e E) <= conv_tol ->
  is_rv per tp e om k t v ->
  Rabs (py_rv_of_nu e om k (nu_of_E e E) - v) <= rv_err e k.
Proof.
  intros He Hf Hv. apply is_rv_V in Hv; auto. destruct Hv as [Es [HEs ->]].
  pose proof (kepler_accuracy e _ E Es _ He Hf HEs) as HE.
  pose proof (V_lipschitz e om k Es E He) as HL.
  pose proof (py_rv_any e om k E He) as HP.
  pose proof (sqrt_ratio_pos e ltac:(lra)) as Hq.
  pose proof (Rabs_pos k) as Hk.
  replace (py_rv_of_nu e om k (nu_of_E e E) - V e om k Es)
    with ((py_rv_of_nu e om k (nu_of_E e E) - V e om k E) + (V e om k E - V e om k Es)) by ring.
  eapply Rle_trans; [apply Rabs_triang|]. unfold rv_err.
  assert (Rabs k * sqrt ((1 + e) / (1 - e)) * Rabs (E - Es) <=
          Rabs k * sqrt ((1 + e) / (1 - e)) * (conv_tol / (1 - e))).
  { apply Rmult_le_compat_l; auto. nra. }
  lra.
Qed.

(** ** rv_drive *)
Opaque c_kepler kepler.
Lemma map_res_nth {A B} (f : A -> res B) : forall l l' i x,
  map_res f l = Ok l' -> nth_error l i = Some x ->
  exists y, f x = Ok y /\ nth_error l' i = Some y.
Proof.
  induction l as [|a l IH]; intros l' [|i] x; cbn; try discriminate;
  destruct (f a) as [y|] eqn:F; cbn; try discriminate;
  destruct (map_res f l) as [ys|] eqn:M; cbn; try discriminate;
  intros H Hi; inversion H; subst; cbn.
  - inversion Hi; subst. eauto.
  - eapply IH; eauto.
Qed.

Lemma map_res_length {A B} (f : A -> res B) : forall l l',
  map_res f l = Ok l' -> length l' = length l.
Proof.
  induction l as [|a l IH]; intros l'; cbn.
  - intro H; inversion H; reflexivity.
  - destruct (f a); cbn; try discriminate. destruct (map_res f l) eqn:M; cbn; try discriminate.
    intro H; inversion H; cbn; auto.
Qed.

Lemma npelems_npmap f v : npelems (npmap f v) = map f (npelems v).
Proof. destruct v; reflexivity. Qed.

(** elements of the general (non circular) branch come from converged anomalies *)
Lemma general_branch (use_c : bool) fuel ts per tp e om k v :
  (if use_c then c_rv_drive_array ts per tp e om k
    else do nu <- true_anomaly fuel ts tp per e; Ok (npmap (py_rv_of_nu e om k) nu)) = Ok v ->
  length (npelems v) = length ts /\
  forall i t, nth_error ts i = Some t ->
    exists E, Rabs (kepler_fi (mean_anomaly per tp t) e E) <= conv_tol /\
      nth_error (npelems v) i = Some (py_rv_of_nu e om k (nu_of_E e E)).
Proof.
  destruct use_c.
  - unfold c_rv_drive_array. destruct (map_res _ ts) as [l|] eqn:M; cbn; [|discriminate].
    intro H; inversion H; subst; cbn. split; [eapply map_res_length; eauto|].
    intros i t Ht. destruct (map_res_nth _ _ _ _ _ M Ht) as [y [Hy Hi]].
    unfold c_rv_drive in Hy. destruct (c_kepler _ e) as [E|] eqn:K in Hy; cbn in Hy; [|discriminate].
    inversion Hy; subst. exists E. split; [now apply c_kepler_conv|].
    now rewrite <- c_rv_eq_py.
  - unfold true_anomaly. cbn.
    destruct (kepler fuel _ _) as [e1|] eqn:K; cbn; [|discriminate].
    intro H; inversion H; subst. rewrite !npelems_npmap.
    apply kepler_pointwise in K; [|now rewrite !map_length].
    destruct K as [L K]. rewrite map_length in L. split; [now rewrite !map_length|].
    intros i t Ht.
    destruct (K i (mean_anomaly per tp t) (0 + e)) as [E [HE Hi]].
    + now apply map_nth_error.
    + change (0 + e) with ((fun _ : R => 0 + e) t). now apply map_nth_error.
    + exists E. apply solve1_loop_conv in HE. rewrite Rplus_0_l in HE. split; auto.
      erewrite map_nth_error; [reflexivity|]. now apply map_nth_error.
Qed.

Lemma rv_drive_accurate use_c fuel ts o v :
  0 < o_e o <= 99 / 100 -> 0 < o_per o ->
  rv_drive use_c fuel ts o = Ok v ->
  length (npelems v) = length ts /\
  forall i t, nth_error ts i = Some t ->
   exists x rv, nth_error (npelems v) i = Some x /\
     is_rv (o_per o) (o_tp o) (o_e o) (o_om o) (o_k o) t rv /\
     Rabs (x - rv) <= rv_err (o_e o) (o_k o).
Proof.
  intros He Hp. unfold rv_drive.
  rewrite (proj2 (reqb_false (o_e o) 0)) by lra.
  rewrite (proj2 (rltb_false (o_per o) 0)) by lra.
  rewrite (proj2 (rltb_false (o_e o) 0)) by lra.
  rewrite (proj2 (rltb_false (99/100) (o_e o))) by lra.
  intro H. apply general_branch in H. destruct H as [L H]. split; auto.
  intros i t Ht. destruct (H i t Ht) as [E [HE Hi]].
  destruct (is_rv_exists (o_per o) (o_tp o) (o_e o) (o_om o) (o_k o) t ltac:(lra)) as [rv Hrv].
  exists (py_rv_of_nu (o_e o) (o_om o) (o_k o) (nu_of_E (o_e o) E)), rv.
  repeat split; auto. eapply rv_of_converged; eauto. lra.
Qed.

(** circular orbits: exact *)
Lemma rv_drive_circular use_c fuel ts o :
  o_e o = 0 -> exists l, rv_drive use_c fuel ts o = Ok (Arr l) /\ length l = length ts /\
  forall i t, nth_error ts i = Some t -> exists x, nth_error l i = Some x /\
    is_rv (o_per o) (o_tp o) 0 (o_om o) (o_k o) t x.
Proof.
  intro He. unfold rv_drive. rewrite (proj2 (reqb_true (o_e o) 0)) by assumption.
  eexists. split; [reflexivity|]. split; [now rewrite map_length|].
  intros i t Ht. eexists. split; [apply (map_nth_error _ _ _ Ht)|].
  apply is_rv_V; [lra|]. exists (mean_anomaly (o_per o) (o_tp o) t). split.
  - unfold is_ecc_anomaly. ring.
  - unfold V. replace (1 - 0 * 0) with 1 by ring. rewrite cos_plus, sqrt_1. field.
Qed.

(** bound, linearity and invariances of the code's own output *)
Lemma py_rv_bound e om k nu : 0 <= e -> Rabs (py_rv_of_nu e om k nu) <= Rabs k * (1 + e).
Proof.
  intro He. unfold py_rv_of_nu. rewrite Rabs_mult. apply Rmult_le_compat_l; [apply Rabs_pos|].
  pose proof (COS_bound (nu + om)). pose proof (COS_bound om). apply Rabs_le. split; nra.
Qed.

Lemma rv_drive_bound use_c fuel ts o v :
  rv_drive use_c fuel ts o = Ok v ->
  forall x, In x (npelems v) -> Rabs x <= Rabs (o_k o) * (1 + Rmin (Rmax (o_e o) 0) (99/100)).
Proof.
  unfold rv_drive. destruct (reqb (o_e o) 0) eqn:E0.
  - apply reqb_true in E0. intro H; inversion H; subst; cbn. intros x Hx.
    apply in_map_iff in Hx as [t [<- _]].
    rewrite E0, Rmax_left, Rmin_left by lra. rewrite Rplus_0_r, Rmult_1_r, Rabs_mult.
    pose proof (COS_bound (mean_anomaly (o_per o) (o_tp o) t + o_om o)).
    assert (Rabs (cos (mean_anomaly (o_per o) (o_tp o) t + o_om o)) <= 1) by (apply Rabs_le; lra).
    pose proof (Rabs_pos (o_k o)). nra.
  - apply reqb_false in E0. intro H. apply general_branch in H. destruct H as [L H].
    intros x Hx. apply In_nth_error in Hx as [i Hi].
    assert (Hlt : (i < length ts)%nat) by (rewrite <- L; apply nth_error_Some; congruence).
    destruct (nth_error ts i) as [t|] eqn:Et; [|now apply nth_error_None in Et; lia].
    destruct (H i t Et) as [E [_ HE]]. rewrite HE in Hi. inversion Hi; subst. clear Hi HE.
    set (e' := if rltb (o_e o) 0 then 0 else o_e o).
    set (e'' := if rltb (99/100) e' then 99/100 else e').
    assert (He' : e' = Rmax (o_e o) 0).
    { unfold e', rltb. destruct (Rlt_dec (o_e o) 0); [rewrite Rmax_right|rewrite Rmax_left]; lra. }
    assert (He'' : e'' = Rmin (Rmax (o_e o) 0) (99/100)).
    { unfold e'', rltb. rewrite He'. destruct (Rlt_dec (99/100) (Rmax (o_e o) 0)); [rewrite Rmin_right|rewrite Rmin_left]; lra. }
    rewrite <- He''. apply py_rv_bound. rewrite He''. apply Rmin_glb; [apply Rmax_r|lra].
Qed.

Lemma map_ext_mean per tp ts n : per <> 0 ->
  map (mean_anomaly per tp) (map (fun t => t + IZR n * per) ts) = map (mean_anomaly per tp) ts.
Proof.
  intro H. rewrite map_map. apply map_ext. intro t. now apply mean_anomaly_period.
Qed.

Lemma rv_drive_period use_c fuel ts o n : 0 < o_per o ->
  rv_drive use_c fuel (map (fun t => t + IZR n * o_per o) ts) o = rv_drive use_c fuel ts o.
Proof.
  intro H. unfold rv_drive. destruct (reqb (o_e o) 0).
  - f_equal. f_equal. rewrite map_map. apply map_ext. intro t. now rewrite mean_anomaly_period by lra.
  - rewrite (proj2 (rltb_false (o_per o) 0)) by lra.
    destruct use_c.
    + unfold c_rv_drive_array. f_equal.
      induction ts as [|t ts IH]; cbn; auto. rewrite IH. f_equal.
      unfold c_rv_drive. now rewrite mean_anomaly_period by lra.
    + unfold true_anomaly. rewrite map_ext_mean by lra. rewrite (map_map _ (fun _ => _)). reflexivity.
Qed.

Lemma rv_drive_tp use_c fuel ts o n : 0 < o_per o ->
  rv_drive use_c fuel ts (mkOrbel (o_per o) (o_tp o + IZR n * o_per o) (o_e o) (o_om o) (o_k o)) =
  rv_drive use_c fuel ts o.
Proof.
  intro H. unfold rv_drive; cbn. destruct (reqb (o_e o) 0).
  - f_equal. f_equal. apply map_ext. intro t. now rewrite mean_anomaly_tp by lra.
  - rewrite (proj2 (rltb_false (o_per o) 0)) by lra.
    destruct use_c.
    + unfold c_rv_drive_array. f_equal.
      induction ts as [|t ts IH]; cbn; auto. rewrite IH. f_equal.
      unfold c_rv_drive. now rewrite mean_anomaly_tp by lra.
    + unfold true_anomaly.
      replace (map (mean_anomaly (o_per o) (o_tp o + IZR n * o_per o)) ts)
        with (map (mean_anomaly (o_per o) (o_tp o)) ts); auto.
      apply map_ext. intro t. now rewrite mean_anomaly_tp by lra.
Qed.

Lemma py_rv_om_period e om k nu n : py_rv_of_nu e (om + 2 * IZR n * PI) k nu = py_rv_of_nu e om k nu.
Proof.
  unfold py_rv_of_nu. rewrite <- Rplus_assoc, !cos_Zperiod. reflexivity.
Qed.

Lemma rv_drive_om use_c fuel ts o n :
  rv_drive use_c fuel ts (mkOrbel (o_per o) (o_tp o) (o_e o) (o_om o + 2 * IZR n * PI) (o_k o)) =
  rv_drive use_c fuel ts o.
Proof.
  unfold rv_drive; cbn. destruct (reqb (o_e o) 0).
  - f_equal. f_equal. apply map_ext. intro t. now rewrite <- Rplus_assoc, cos_Zperiod.
  - destruct use_c.
    + unfold c_rv_drive_array. now rewrite cos_Zperiod, sin_Zperiod.
    + destruct (true_anomaly _ _ _ _ _) as [nu|]; cbn; auto. f_equal.
      destruct nu; cbn; [f_equal; apply map_ext; intro|f_equal]; now rewrite py_rv_om_period.
Qed.

Definition res_map {A B} (f : A -> B) (x : res A) : res B :=
  match x with Ok a => Ok (f a) | Err e => Err e end.

Lemma map_res_map {A B C} (f : A -> res B) (f' : A -> res C) (g : B -> C) l :
  (forall x, f' x = res_map g (f x)) -> map_res f' l = res_map (map g) (map_res f l).
Proof.
  intro H. induction l as [|x l IH]; cbn; auto. rewrite H, IH.
  destruct (f x); cbn; auto. destruct (map_res f l); cbn; auto.
Qed.

Lemma rv_drive_linear use_c fuel ts o c :
  rv_drive use_c fuel ts (mkOrbel (o_per o) (o_tp o) (o_e o) (o_om o) (c * o_k o)) =
  res_map (npmap (fun x => c * x)) (rv_drive use_c fuel ts o).
Proof.
  unfold rv_drive; cbn. destruct (reqb (o_e o) 0).
  - cbn. f_equal. f_equal. rewrite map_map. apply map_ext. intro. ring.
  - destruct use_c.
    + unfold c_rv_drive_array.
      set (per := if rltb (o_per o) 0 then _ else _).
      set (e := if rltb (99/100) _ then _ else _).
      assert (HM : map_res (fun x => c_rv_drive x per (o_tp o) e (cos (o_om o)) (sin (o_om o)) (c * o_k o)) ts =
        res_map (map (fun x => c * x))
          (map_res (fun x => c_rv_drive x per (o_tp o) e (cos (o_om o)) (sin (o_om o)) (o_k o)) ts)).
      { apply map_res_map. intro t. unfold c_rv_drive.
        destruct (c_kepler (mean_anomaly per (o_tp o) t) e); cbn; auto.
        f_equal. unfold c_rv_of_E. ring. }
      rewrite HM. clear HM. destruct (map_res _ ts); reflexivity.
    + destruct (true_anomaly _ _ _ _ _) as [nu|]; cbn; auto. f_equal.
      destruct nu; cbn; [f_equal; rewrite map_map; apply map_ext; intro|f_equal]; unfold py_rv_of_nu; ring.
Qed.

(** the two back ends agree up to the solver tolerance *)
Lemma backends_close fuel ts o v w :
  0 <= o_e o <= 99 / 100 -> 0 < o_per o ->
  rv_drive true fuel ts o = Ok v -> rv_drive false fuel ts o = Ok w ->
  length (npelems v) = length (npelems w) /\
  forall i x y, nth_error (npelems v) i = Some x -> nth_error (npelems w) i = Some y ->
    Rabs (x - y) <= 2 * rv_err (o_e o) (o_k o).
Proof.
  intros He Hp Hv Hw.
  destruct (Req_dec (o_e o) 0) as [E0|E0].
  - unfold rv_drive in Hv, Hw. rewrite (proj2 (reqb_true (o_e o) 0)) in Hv, Hw by assumption.
    rewrite Hv in Hw. inversion Hw; subst. split; auto.
    intros i x y Hx Hy. rewrite Hx in Hy. inversion Hy; subst.
    rewrite Rminus_eq_0, Rabs_R0. unfold rv_err. rewrite E0.
    pose proof (Rabs_pos (o_k o)). pose proof (sqrt_ratio_pos 0 ltac:(lra)).
    unfold conv_tol. assert (0 < / 10 ^ 15) by (apply Rinv_0_lt_compat; lra).
    assert (0 < / 1000000000000 / (1 - 0)) by (apply Rdiv_lt_0_compat; lra).
    apply Rmult_le_pos; [lra|]. apply Rmult_le_pos; nra.
  - apply rv_drive_accurate in Hv; [|lra..]. apply rv_drive_accurate in Hw; [|lra..].
    destruct Hv as [L1 H1], Hw as [L2 H2]. split; [congruence|].
    intros i x y Hx Hy.
    assert (Hlt : (i < length ts)%nat) by (rewrite <- L1; apply nth_error_Some; congruence).
    destruct (nth_error ts i) as [t|] eqn:Et; [|now apply nth_error_None in Et; lia].
    destruct (H1 i t Et) as [x1 [r1 [Hx1 [Hr1 B1]]]]. destruct (H2 i t Et) as [x2 [r2 [Hx2 [Hr2 B2]]]].
    rewrite Hx in Hx1. rewrite Hy in Hx2. inversion Hx1; inversion Hx2; subst.
    assert (r1 = r2) by (eapply is_rv_unique; eauto; lra). subst.
    replace (x1 - x2) with ((x1 - r2) - (x2 - r2)) by ring.
    eapply Rle_trans; [apply Rabs_triang|]. rewrite Rabs_Ropp. lra.
Qed.

(** ** clamping *)
Definition clamp_orbel (o : orbel) : orbel :=
  mkOrbel (if Rlt_dec (o_per o) 0 then / 10000 else o_per o) (o_tp o)
    (Rmin (Rmax (o_e o) 0) (99/100)) (o_om o) (o_k o).

Lemma rv_drive_clamp_pos use_c fuel ts o : 0 < o_e o ->
  rv_drive use_c fuel ts o = rv_drive use_c fuel ts (clamp_orbel o).
Proof.
  intro He. unfold rv_drive, clamp_orbel; cbn.
  rewrite (proj2 (reqb_false (o_e o) 0)) by lra.
  rewrite (Rmax_left (o_e o) 0) by lra.
  assert (Hm : 0 < Rmin (o_e o) (99/100)) by (apply Rmin_glb_lt; lra).
  rewrite (proj2 (reqb_false (Rmin (o_e o) (99/100)) 0)) by lra.
  rewrite (proj2 (rltb_false (o_e o) 0)) by lra.
  rewrite (proj2 (rltb_false (Rmin (o_e o) (99/100)) 0)) by lra.
  rewrite (proj2 (rltb_false (99/100) (Rmin (o_e o) (99/100)))) by apply Rmin_r.
  assert (E1 : (if rltb (99/100) (o_e o) then 99/100 else o_e o) = Rmin (o_e o) (99/100)).
  { unfold rltb. destruct (Rlt_dec (99/100) (o_e o)); [rewrite Rmin_right|rewrite Rmin_left]; lra. }
  rewrite E1.
  assert (E2 : (if rltb (if Rlt_dec (o_per o) 0 then / 10000 else o_per o) 0 then / 10000
     else if Rlt_dec (o_per o) 0 then / 10000 else o_per o) = (if rltb (o_per o) 0 then / 10000 else o_per o)).
  { unfold rltb. destruct (Rlt_dec (o_per o) 0); [destruct (Rlt_dec (/10000) 0)|destruct (Rlt_dec (o_per o) 0)]; try lra; auto. }
  rewrite E2. reflexivity.
Qed.

(** negative eccentricity gives the circular orbit (up to the tan pole), with a clamped period *)
Lemma rv_drive_clamp_neg use_c fuel ts o v : o_e o < 0 ->
  rv_drive use_c fuel ts o = Ok v ->
  length (npelems v) = length ts /\
  forall i t, nth_error ts i = Some t ->
   exists x rv, nth_error (npelems v) i = Some x /\
     is_rv (o_per (clamp_orbel o)) (o_tp o) 0 (o_om o) (o_k o) t rv /\
     Rabs (x - rv) <= rv_err 0 (o_k o).
Proof.
  intro He. unfold rv_drive.
  rewrite (proj2 (reqb_false (o_e o) 0)) by lra.
  rewrite (proj2 (rltb_true (o_e o) 0)) by lra.
  rewrite (proj2 (rltb_false (99/100) 0)) by lra.
  intro H. apply general_branch in H. destruct H as [L H]. split; auto.
  intros i t Ht. destruct (H i t Ht) as [E [HE Hi]].
  assert (EP : o_per (clamp_orbel o) = if rltb (o_per o) 0 then / 10000 else o_per o).
  { cbn. unfold rltb. destruct (Rlt_dec (o_per o) 0); reflexivity. }
  rewrite EP.
  destruct (is_rv_exists (if rltb (o_per o) 0 then / 10000 else o_per o) (o_tp o) 0 (o_om o) (o_k o) t ltac:(lra)) as [rv Hrv].
  eexists _, rv. repeat split; eauto. eapply rv_of_converged; eauto. lra.
Qed.

(** circular orbits do not clamp the period *)
Lemma rv_drive_clamp_refuted :
  exists o ts, o_e o = 0 /\ o_per o < 0 /\
    forall use_c fuel, rv_drive use_c fuel ts o <> rv_drive use_c fuel ts (clamp_orbel o).
Proof.
  exists (mkOrbel (-1) 0 0 0 1), [/ 20000]. split; [reflexivity|]. split; [cbn; lra|].
  intros use_c fuel. unfold rv_drive, clamp_orbel; cbn.
  rewrite (Rmax_left 0 0), (Rmin_left 0 (99/100)) by lra.
  rewrite (proj2 (reqb_true 0 0)) by reflexivity.
  destruct (Rlt_dec (-1) 0); [|lra].
  intro H. injection H as H. rewrite !Rplus_0_r, !Rmult_1_l in H.
  unfold mean_anomaly, np_floor in H.
  assert (I1 : Int_part ((/ 20000 - 0) / -1) = (-1)%Z).
  { replace ((/20000 - 0) / -1) with (- / 20000) by field.
    unfold Int_part. rewrite <- (tech_up (- / 20000) 0); lra || lia. }
  assert (I2 : Int_part ((/ 20000 - 0) / / 10000) = 0%Z).
  { replace ((/20000 - 0) / /10000) with (/2) by field.
    unfold Int_part. rewrite <- (tech_up (/2) 1); lra || lia. }
  rewrite I1, I2 in H.
  replace (2 * PI * ((/ 20000 - 0) / / 10000 - 0)) with PI in H by field.
  replace (2 * PI * ((/ 20000 - 0) / -1 - -1)) with (- (2 * PI * / 20000) + 2 * IZR 1 * PI) in H by field.
  rewrite cos_Zperiod, cos_neg, cos_PI in H.
  pose proof PI_RGT_0.
  assert (0 < cos (2 * PI * / 20000)); [|lra].
  apply cos_gt_0; lra.
Qed.

(** the e = 0 shortcut equals the general formula at e = 0 *)
Lemma circular_shortcut per tp om k t :
  cos (mean_anomaly per tp t / 2) <> 0 ->
  py_rv_of_nu 0 om k (nu_of_E 0 (mean_anomaly per tp t)) = k * cos (mean_anomaly per tp t + om).
Proof.
  intro H. rewrite py_rv_exact by (auto; lra). unfold V.
  replace (1 - 0 * 0) with 1 by ring. rewrite cos_plus, sqrt_1. field.
Qed.
