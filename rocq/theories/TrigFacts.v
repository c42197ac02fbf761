From Coq Require Import Reals ZArith Lra Lia Psatz.
From Coquelicot Require Import Coquelicot.
From Verif Require Import Py PyFacts Kepler KeplerProofs KeplerSpec.
Open Scope R_scope.

Lemma cos_Zperiod x (n : Z) : cos (x + 2 * IZR n * PI) = cos x.
Proof.
  destruct (Z_le_gt_dec 0 n) as [H|H].
  - replace (IZR n) with (INR (Z.to_nat n)).
    + apply cos_period.
    + rewrite INR_IZR_INZ. f_equal. lia.
  - rewrite <- (cos_period _ (Z.to_nat (- n))). f_equal.
    rewrite INR_IZR_INZ, Z2Nat.id by lia. rewrite opp_IZR. ring.
Qed.

Lemma sin_Zperiod x (n : Z) : sin (x + 2 * IZR n * PI) = sin x.
Proof.
  destruct (Z_le_gt_dec 0 n) as [H|H].
  - replace (IZR n) with (INR (Z.to_nat n)).
    + apply sin_period.
    + rewrite INR_IZR_INZ. f_equal. lia.
  - rewrite <- (sin_period _ (Z.to_nat (- n))). f_equal.
    rewrite INR_IZR_INZ, Z2Nat.id by lia. rewrite opp_IZR. ring.
Qed.

Lemma cos_2atan x : cos (2 * atan x) = (1 - x * x) / (1 + x * x).
Proof.
  rewrite cos_2a, cos_atan, sin_atan.
  assert (H : 0 < 1 + x²) by (pose proof (Rle_0_sqr x); lra).
  pose proof (sqrt_sqrt (1 + x²) (Rlt_le _ _ H)) as Hs.
  pose proof (sqrt_lt_R0 _ H) as Hp.
  unfold Rsqr in *. set (s := sqrt (1 + x * x)) in *.
  field_simplify_eq; [|split; nra].
  replace (s ^ 2) with (1 + x * x) by (rewrite <- Hs; ring). ring.
Qed.

Lemma sin_2atan x : sin (2 * atan x) = 2 * x / (1 + x * x).
Proof.
  rewrite sin_2a, cos_atan, sin_atan.
  assert (H : 0 < 1 + x²) by (pose proof (Rle_0_sqr x); lra).
  pose proof (sqrt_sqrt (1 + x²) (Rlt_le _ _ H)) as Hs.
  pose proof (sqrt_lt_R0 _ H) as Hp.
  unfold Rsqr in *. set (s := sqrt (1 + x * x)) in *.
  field_simplify_eq; [|split; nra].
  replace (s ^ 2) with (1 + x * x) by (rewrite <- Hs; ring). ring.
Qed.

Lemma tan_half_cos E : cos (E / 2) <> 0 ->
  cos E = (1 - tan (E/2) * tan (E/2)) / (1 + tan (E/2) * tan (E/2)).
Proof.
  intro H. replace E with (2 * (E / 2)) at 1 by field.
  rewrite cos_2a. unfold tan. pose proof (sin2_cos2 (E / 2)) as S. unfold Rsqr in S.
  set (s := sin (E/2)) in *. set (c := cos (E/2)) in *.
  field_simplify_eq.
  - replace (c^4) with (c^2 * c^2) by ring. replace (s^4) with (s^2*s^2) by ring.
    replace (c^2) with (1 - s^2) by (rewrite <- S; ring). ring.
  - split; auto. replace (c^2 + s^2) with 1 by (rewrite <- S; ring). lra.
Qed.

Lemma tan_half_sin E : cos (E / 2) <> 0 ->
  sin E = 2 * tan (E/2) / (1 + tan (E/2) * tan (E/2)).
Proof.
  intro H. replace E with (2 * (E / 2)) at 1 by field.
  rewrite sin_2a. unfold tan. pose proof (sin2_cos2 (E / 2)) as S. unfold Rsqr in S.
  set (s := sin (E/2)) in *. set (c := cos (E/2)) in *.
  field_simplify_eq.
  - replace (s^3) with (s * s^2) by ring. replace (s^2) with (1 - c^2) by (rewrite <- S; ring). ring.
  - split; auto. replace (c^2 + s^2) with 1 by (rewrite <- S; ring). lra.
Qed.

Lemma np_tan_eq x : cos x <> 0 -> np_tan x = tan x.
Proof. intro H. unfold np_tan. now destruct (Req_EM_T (cos x) 0). Qed.

Lemma np_tan_pole x : cos x = 0 -> np_tan x = HUGE.
Proof. intro H. unfold np_tan. now destruct (Req_EM_T (cos x) 0). Qed.

Lemma sqrt_ratio_pos e : -1 < e < 1 -> 0 < sqrt ((1 + e) / (1 - e)).
Proof. intro H. apply sqrt_lt_R0. apply Rdiv_lt_0_compat; lra. Qed.

Lemma sqrt_ratio_sq e : -1 < e < 1 ->
  sqrt ((1 + e) / (1 - e)) * sqrt ((1 + e) / (1 - e)) = (1 + e) / (1 - e).
Proof. intro H. apply sqrt_sqrt. apply Rlt_le, Rdiv_lt_0_compat; lra. Qed.

Lemma sqrt_1me2 e : -1 < e < 1 -> sqrt (1 - e * e) = (1 - e) * sqrt ((1 + e) / (1 - e)).
Proof.
  intro H. apply sqrt_lem_1; try nra.
  - pose proof (sqrt_ratio_pos e H). nra.
  - replace ((1 - e) * sqrt ((1 + e) / (1 - e)) * ((1 - e) * sqrt ((1 + e) / (1 - e))))
      with ((1 - e) * (1 - e) * (sqrt ((1 + e) / (1 - e)) * sqrt ((1 + e) / (1 - e)))) by ring.
    rewrite sqrt_ratio_sq by assumption. field. lra.
Qed.

Lemma sqrt_ratio_inv e : -1 < e < 1 ->
  sqrt ((1 - e) / (1 + e)) * sqrt ((1 + e) / (1 - e)) = 1.
Proof.
  intro H. rewrite <- sqrt_mult.
  - replace ((1 - e) / (1 + e) * ((1 + e) / (1 - e))) with 1 by (field; lra). apply sqrt_1.
  - apply Rlt_le, Rdiv_lt_0_compat; lra.
  - apply Rlt_le, Rdiv_lt_0_compat; lra.
Qed.

Lemma ecosE_pos e E : 0 <= e < 1 -> 0 < 1 - e * cos E.
Proof. intro H. pose proof (COS_bound E). nra. Qed.

(** cos and sin of the true anomaly at E, when E is not an odd multiple of pi *)
Lemma nu_of_E_correct e E : 0 <= e < 1 -> cos (E / 2) <> 0 ->
  is_true_anomaly e E (nu_of_E e E).
Proof.
  intros He Hc. unfold is_true_anomaly, nu_of_E, half_tan.
  rewrite (np_tan_eq _ Hc), cos_2atan, sin_2atan, (tan_half_cos E Hc), (tan_half_sin E Hc).
  rewrite sqrt_1me2 by lra.
  pose proof (sqrt_ratio_sq e ltac:(lra)) as Hs.
  pose proof (sqrt_ratio_pos e ltac:(lra)) as Hp.
  set (c := sqrt ((1 + e) / (1 - e))) in *. set (t := tan (E / 2)) in *.
  assert (Hs' : c * c * (1 - e) = 1 + e) by (rewrite Hs; field; lra).
  assert (Hcc : c ^ 2 = (1 + e) / (1 - e)) by (rewrite <- Hs; ring).
  assert (Ht : 0 <= t * t) by nra.
  assert (D0 : 1 + t * t <> 0) by nra.
  assert (D1 : 1 + c * t * (c * t) <> 0) by nra.
  assert (D2 : (1 + t * t) - e * (1 - t * t) <> 0) by nra.
  assert (D3 : 1 - e * ((1 - t * t) / (1 + t * t)) <> 0).
  { replace (1 - e * ((1 - t * t) / (1 + t * t))) with (((1 + t * t) - e * (1 - t * t)) / (1 + t * t)) by (field; auto).
    apply Rmult_integral_contrapositive_currified; auto. now apply Rinv_neq_0_compat. }
  replace (c * t * (c * t)) with ((1 + e) / (1 - e) * (t * t)) in * by (rewrite <- Hs; ring).
  assert (D4 : (1 - e) + (1 + e) * (t * t) <> 0) by nra.
  split.
  - field. repeat split; try lra; nra.
  - field. repeat split; try lra; nra.
Qed.

Lemma is_true_anomaly_circle e E : 0 <= e < 1 ->
  ((cos E - e) / (1 - e * cos E)) ^ 2 + (sqrt (1 - e * e) * sin E / (1 - e * cos E)) ^ 2 = 1.
Proof.
  intro He. pose proof (ecosE_pos e E He) as Hp.
  assert (Hq : sqrt (1 - e * e) * sqrt (1 - e * e) = 1 - e * e) by (apply sqrt_sqrt; nra).
  pose proof (sin2_cos2 E) as Hsc. unfold Rsqr in Hsc.
  set (q := sqrt (1 - e * e)) in *. set (c := cos E) in *. set (s := sin E) in *.
  field_simplify_eq; [|lra].
  replace (q ^ 2) with (1 - e * e) by (rewrite <- Hq; ring).
  replace (s ^ 2) with (1 - c * c) by (rewrite <- Hsc; ring). ring.
Qed.

(** an angle with given cosine and sine exists *)
Lemma angle_exists c s : c ^ 2 + s ^ 2 = 1 -> exists a, cos a = c /\ sin a = s.
Proof.
  intro H.
  assert (Hc : -1 <= c <= 1) by nra.
  destruct (Rle_dec 0 s) as [Hs|Hs].
  - exists (acos c). rewrite cos_acos, sin_acos by lra. split; auto.
    apply sqrt_lem_1; unfold Rsqr; nra.
  - exists (- acos c). rewrite cos_neg, sin_neg, cos_acos, sin_acos by lra. split; auto.
    assert (sqrt (1 - c²) = - s); [|lra]. apply sqrt_lem_1; unfold Rsqr; nra.
Qed.

Lemma true_anomaly_exists e E : 0 <= e < 1 -> exists nu, is_true_anomaly e E nu.
Proof. intro He. apply angle_exists. now apply is_true_anomaly_circle. Qed.

(** closed form of the velocity at E *)
Definition V (e om k E : R) : R :=
  k * ((cos E - e) / (1 - e * cos E) * cos om
       - sqrt (1 - e * e) * sin E / (1 - e * cos E) * sin om + e * cos om).

Lemma V_true_anomaly e om k E nu : is_true_anomaly e E nu ->
  k * (cos (nu + om) + e * cos om) = V e om k E.
Proof. intros [Hc Hs]. rewrite cos_plus, Hc, Hs. unfold V. ring. Qed.

Lemma V_derive e om k E : 0 <= e < 1 ->
  is_derive (V e om k) E
   (- k * (sqrt (1 - e * e) / (1 - e * cos E)) *
      (sqrt (1 - e * e) * sin E / (1 - e * cos E) * cos om + (cos E - e) / (1 - e * cos E) * sin om)).
Proof.
  intro He. pose proof (ecosE_pos e E He) as Hp. unfold V.
  auto_derive; [lra|].
  assert (Hq : sqrt (1 - e * e) * sqrt (1 - e * e) = 1 - e * e) by (apply sqrt_sqrt; nra).
  pose proof (sin2_cos2 E) as Hsc. unfold Rsqr in Hsc.
  change (1 + - (e * e)) with (1 - e * e).
  set (q := sqrt (1 - e * e)) in *. set (c := cos E) in *. set (s := sin E) in *.
  field_simplify_eq; [|lra].
  assert (Hq2 : q ^ 2 = 1 - e * e) by (rewrite <- Hq; ring).
  assert (Hs2 : s ^ 2 = 1 - c * c) by (rewrite <- Hsc; ring).
  rewrite Hq2. ring_simplify. rewrite ?Hs2. ring.
Qed.

Lemma V_derive_bound e om k E : 0 <= e < 1 ->
  Rabs (- k * (sqrt (1 - e * e) / (1 - e * cos E)) *
      (sqrt (1 - e * e) * sin E / (1 - e * cos E) * cos om + (cos E - e) / (1 - e * cos E) * sin om))
   <= Rabs k * sqrt ((1 + e) / (1 - e)).
Proof.
  intro He. destruct (true_anomaly_exists e E He) as [nu [Hc Hs]].
  rewrite <- Hc, <- Hs.
  replace (sin nu * cos om + cos nu * sin om) with (sin (nu + om)) by (rewrite sin_plus; ring).
  rewrite !Rabs_mult, Rabs_Ropp.
  pose proof (ecosE_pos e E He) as Hp.
  assert (H1 : Rabs (sin (nu + om)) <= 1) by (apply Rabs_le; apply SIN_bound).
  assert (H2 : 0 <= sqrt (1 - e * e) / (1 - e * cos E) <= sqrt ((1 + e) / (1 - e))).
  { rewrite sqrt_1me2 by lra. pose proof (sqrt_ratio_pos e ltac:(lra)) as Hq.
    pose proof (COS_bound E). split.
    - apply Rlt_le, Rdiv_lt_0_compat; auto. nra.
    - apply Rmult_le_reg_r with (1 - e * cos E); auto.
      unfold Rdiv at 1. rewrite Rmult_assoc, Rinv_l by lra.
      assert (e * cos E <= e) by nra. nra. }
  rewrite (Rabs_pos_eq (sqrt (1 - e * e) / (1 - e * cos E))) by lra.
  pose proof (Rabs_pos k). pose proof (Rabs_pos (sin (nu + om))).
  assert (Rabs k * (sqrt (1 - e * e) / (1 - e * cos E)) <= Rabs k * sqrt ((1 + e) / (1 - e))) by nra.
  assert (0 <= Rabs k * (sqrt (1 - e * e) / (1 - e * cos E))) by nra.
  nra.
Qed.

Lemma V_lipschitz e om k E1 E2 : 0 <= e < 1 ->
  Rabs (V e om k E2 - V e om k E1) <= Rabs k * sqrt ((1 + e) / (1 - e)) * Rabs (E2 - E1).
Proof.
  intro He.
  destruct (MVT_gen (V e om k) E1 E2 (fun E => - k * (sqrt (1 - e * e) / (1 - e * cos E)) *
      (sqrt (1 - e * e) * sin E / (1 - e * cos E) * cos om + (cos E - e) / (1 - e * cos E) * sin om))) as [c [_ Hc]].
  - intros x _. now apply V_derive.
  - intros x _. apply ex_derive_continuous_pt || idtac.
    apply derivable_continuous_pt. exists (- k * (sqrt (1 - e * e) / (1 - e * cos x)) *
      (sqrt (1 - e * e) * sin x / (1 - e * cos x) * cos om + (cos x - e) / (1 - e * cos x) * sin om)).
    apply is_derive_Reals. now apply V_derive.
  - rewrite Hc, Rabs_mult. apply Rmult_le_compat_r; [apply Rabs_pos|].
    now apply V_derive_bound.
Qed.
