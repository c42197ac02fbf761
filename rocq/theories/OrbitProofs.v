From Coq Require Import Reals List Bool ZArith Lra Lia Psatz.
From Coquelicot Require Import Coquelicot.
From Verif Require Import Py PyFacts Kepler KeplerProofs KeplerSpec TrigFacts RvProofs.
Import ListNotations.
Open Scope R_scope.

Lemma sqrt_inv_ratio_pos e : -1 < e < 1 -> 0 < sqrt ((1 - e) / (1 + e)).
Proof. intro H. apply sqrt_lt_R0. apply Rdiv_lt_0_compat; lra. Qed.

Lemma ee_range e f : - PI < ee_of_f e f < PI.
Proof.
  unfold ee_of_f. pose proof (atan_bound (np_tan (f / 2) * sqrt ((1 - e) / (1 + e)))). lra.
Qed.

Lemma ee_half_cos e f : cos (ee_of_f e f / 2) <> 0.
Proof.
  assert (0 < cos (ee_of_f e f / 2)); [|lra].
  pose proof (ee_range e f). apply cos_gt_0; lra.
Qed.

Lemma nu_of_ee e f : 0 <= e < 1 -> nu_of_E e (ee_of_f e f) = 2 * atan (np_tan (f / 2)).
Proof.
  intro He. unfold nu_of_E, half_tan. rewrite np_tan_eq by apply ee_half_cos.
  unfold ee_of_f at 1.
  replace (2 * atan (np_tan (f / 2) * sqrt ((1 - e) / (1 + e))) / 2)
    with (atan (np_tan (f / 2) * sqrt ((1 - e) / (1 + e)))) by field.
  rewrite tan_atan. do 2 f_equal.
  replace (sqrt ((1 + e) / (1 - e)) * (np_tan (f / 2) * sqrt ((1 - e) / (1 + e))))
    with (np_tan (f / 2) * (sqrt ((1 - e) / (1 + e)) * sqrt ((1 + e) / (1 - e)))) by ring.
  rewrite sqrt_ratio_inv by lra. ring.
Qed.

Lemma is_true_anomaly_cs e E nu nu' : cos nu = cos nu' -> sin nu = sin nu' ->
  is_true_anomaly e E nu -> is_true_anomaly e E nu'.
Proof. unfold is_true_anomaly. intros H1 H2. now rewrite H1, H2. Qed.

Lemma ee_true_anomaly e f : 0 <= e < 1 -> cos (f / 2) <> 0 -> is_true_anomaly e (ee_of_f e f) f.
Proof.
  intros He Hf.
  apply (is_true_anomaly_cs e _ (nu_of_E e (ee_of_f e f))).
  - rewrite nu_of_ee by assumption. rewrite np_tan_eq by assumption.
    rewrite cos_2atan. symmetry. now apply tan_half_cos.
  - rewrite nu_of_ee by assumption. rewrite np_tan_eq by assumption.
    rewrite sin_2atan. symmetry. now apply tan_half_sin.
  - apply nu_of_E_correct; auto. apply ee_half_cos.
Qed.

Lemma huge_cs : Rabs (cos (2 * atan HUGE) - -1) <= / 10 ^ 15 /\ Rabs (sin (2 * atan HUGE)) <= / 10 ^ 15.
Proof.
  rewrite cos_2atan, sin_2atan. unfold HUGE.
  split; apply Rabs_le; lra.
Qed.

(** also when the tangent is taken at a pole: true anomaly right to 1e-15 *)
Lemma ee_true_anomaly_approx e f : 0 <= e < 1 ->
  exists nu, is_true_anomaly e (ee_of_f e f) nu /\
    Rabs (cos nu - cos f) <= / 10 ^ 15 /\ Rabs (sin nu - sin f) <= / 10 ^ 15.
Proof.
  intro He. destruct (Req_EM_T (cos (f / 2)) 0) as [H|H].
  - exists (nu_of_E e (ee_of_f e f)). split; [apply nu_of_E_correct; auto using ee_half_cos|].
    rewrite nu_of_ee, np_tan_pole by assumption.
    destruct (pole_values f H) as [-> ->]. rewrite Rminus_0_r. apply huge_cs.
  - exists f. split; [now apply ee_true_anomaly|]. rewrite !Rminus_eq_0, Rabs_R0.
    assert (0 < / 10 ^ 15) by (apply Rinv_0_lt_compat; lra). lra.
Qed.

Lemma round_trip_tp tp per e om :
  timetrans_to_timeperi (timeperi_to_timetrans tp per e om false) per e om = tp.
Proof.
  unfold timetrans_to_timeperi, timeperi_to_timetrans. destruct (rleb 1 e); auto. ring.
Qed.

Lemma round_trip_tc tc per e om :
  timeperi_to_timetrans (timetrans_to_timeperi tc per e om) per e om false = tc.
Proof.
  unfold timetrans_to_timeperi, timeperi_to_timetrans. destruct (rleb 1 e); auto. ring.
Qed.

Lemma unbound_orbit t per e om b : 1 <= e ->
  timeperi_to_timetrans t per e om b = t /\ timetrans_to_timeperi t per e om = t.
Proof.
  intro H. unfold timeperi_to_timetrans, timetrans_to_timeperi.
  now rewrite (proj2 (rleb_true 1 e) H).
Qed.

Definition conj_f (secondary : bool) (om : R) : R :=
  if secondary then 3 * PI / 2 - om else PI / 2 - om.

Lemma timetrans_bound_form tp per e om b : e < 1 ->
  timeperi_to_timetrans tp per e om b =
  tp + per / (2 * PI) * ((ee_of_f e (conj_f b om) + (if b then 2 * PI else 0))
                         - e * sin (ee_of_f e (conj_f b om))).
Proof.
  intro H. unfold timeperi_to_timetrans, conj_f.
  rewrite (proj2 (rleb_false 1 e)) by assumption.
  destruct b.
  - replace (sin (ee_of_f e (3 * PI / 2 - om) + 2 * PI)) with (sin (ee_of_f e (3 * PI / 2 - om))); auto.
    rewrite <- (sin_Zperiod _ 1). f_equal. ring.
  - rewrite Rplus_0_r. reflexivity.
Qed.

Lemma at_transit_gen tp per e om b nu : 0 <= e < 1 -> per <> 0 ->
  is_true_anomaly e (ee_of_f e (conj_f b om)) nu ->
  is_true_anomaly_at per tp e (timeperi_to_timetrans tp per e om b) nu.
Proof.
  intros He Hp Hnu. pose proof PI_RGT_0 as HPI.
  rewrite timetrans_bound_form by lra.
  set (ee := ee_of_f e (conj_f b om)) in *.
  exists (ee + 2 * IZR (if b then 1 else 0) * PI). split.
  - unfold is_ecc_anomaly. rewrite sin_Zperiod. destruct b; field; lra.
  - unfold is_true_anomaly in *. now rewrite cos_Zperiod, sin_Zperiod.
Qed.

Lemma at_transit tp per e om b : 0 <= e < 1 -> per <> 0 -> cos (conj_f b om / 2) <> 0 ->
  is_true_anomaly_at per tp e (timeperi_to_timetrans tp per e om b) (conj_f b om).
Proof. intros. apply at_transit_gen; auto. now apply ee_true_anomaly. Qed.

Lemma at_transit_approx tp per e om b : 0 <= e < 1 -> per <> 0 ->
  exists nu, is_true_anomaly_at per tp e (timeperi_to_timetrans tp per e om b) nu /\
    Rabs (cos nu - cos (conj_f b om)) <= / 10 ^ 15 /\ Rabs (sin nu - sin (conj_f b om)) <= / 10 ^ 15.
Proof.
  intros He Hp. destruct (ee_true_anomaly_approx e (conj_f b om) He) as [nu [H1 H2]].
  exists nu. split; auto. now apply at_transit_gen.
Qed.

Lemma kepler_mono e a b : 0 <= e < 1 -> a < b -> a - e * sin a < b - e * sin b.
Proof.
  intros He H. pose proof (sin_lipschitz_lt a b H) as HL.
  apply Rcomplements.Rabs_le_between in HL. nra.
Qed.

Lemma mean_range e ee : 0 <= e < 1 -> - PI < ee < PI -> - PI < ee - e * sin ee < PI.
Proof.
  intros He [H1 H2]. apply (kepler_mono e _ _ He) in H1. apply (kepler_mono e _ _ He) in H2.
  rewrite sin_neg, sin_PI in H1. rewrite sin_PI in H2. lra.
Qed.

Lemma transit_near_tp tp per e om : 0 <= e < 1 -> 0 < per ->
  Rabs (timeperi_to_timetrans tp per e om false - tp) < per / 2.
Proof.
  intros He Hp. rewrite timetrans_bound_form by lra. rewrite Rplus_0_r.
  pose proof (mean_range e _ He (ee_range e (conj_f false om))) as HR.
  set (m := ee_of_f e (conj_f false om) - e * sin (ee_of_f e (conj_f false om))) in *.
  pose proof PI_RGT_0 as HPI.
  replace (tp + per / (2 * PI) * m - tp) with (per / 2 * (m / PI)) by (field; lra).
  assert (-1 < m / PI < 1).
  { split; apply Rmult_lt_reg_r with PI; auto; unfold Rdiv; rewrite Rmult_assoc, Rinv_l by lra; lra. }
  apply Rabs_def1; nra.
Qed.

Lemma om_period tp per e om b (n : Z) :
  timeperi_to_timetrans tp per e (om + 2 * IZR n * PI) b = timeperi_to_timetrans tp per e om b /\
  timetrans_to_timeperi tp per e (om + 2 * IZR n * PI) = timetrans_to_timeperi tp per e om.
Proof.
  assert (HT : forall x, np_tan (x + IZR n * PI) = np_tan x).
  { intro x. assert (HC : exists s, (s = 1 \/ s = -1) /\ cos (x + IZR n * PI) = s * cos x /\ sin (x + IZR n * PI) = s * sin x).
    { destruct (Z.Even_or_Odd n) as [[m ->]|[m ->]].
      - exists 1. split; auto. rewrite mult_IZR. rewrite cos_Zperiod, sin_Zperiod. lra.
      - exists (-1). split; auto.
        replace (x + IZR (2 * m + 1) * PI) with ((x + PI) + 2 * IZR m * PI) by (rewrite plus_IZR, mult_IZR; ring).
        rewrite cos_Zperiod, sin_Zperiod, neg_cos, neg_sin. lra. }
    destruct HC as [s [Hs [H1 H2]]]. unfold np_tan, tan. rewrite H1, H2.
    destruct (Req_EM_T (s * cos x) 0) as [A|A]; destruct (Req_EM_T (cos x) 0) as [B|B]; auto.
    - exfalso. apply B. destruct Hs; subst; lra.
    - exfalso. apply A. rewrite B. ring.
    - field. split; auto. destruct Hs; subst; lra. }
  assert (HE : forall c, ee_of_f e (c - (om + 2 * IZR n * PI)) = ee_of_f e (c - om)).
  { intro c. unfold ee_of_f. rewrite <- (HT ((c - (om + 2 * IZR n * PI)) / 2)). do 4 f_equal. field. }
  unfold timeperi_to_timetrans, timetrans_to_timeperi. now rewrite !HE.
Qed.

Lemma atan_sign x : (atan x < 0 <-> x < 0) /\ (atan x = 0 <-> x = 0).
Proof.
  split; split; intro H.
  - destruct (Rtotal_order x 0) as [?|[->|Hx]]; auto; [rewrite atan_0 in H; lra|].
    apply atan_increasing in Hx. rewrite atan_0 in Hx. lra.
  - apply atan_increasing in H. now rewrite atan_0 in H.
  - now apply atan_eq0.
  - subst. apply atan_0.
Qed.

(** eccentric anomaly is negative exactly when the sine of the true anomaly is *)
Lemma ee_sign e f : 0 <= e < 1 -> (ee_of_f e f < 0 <-> sin f < 0).
Proof.
  intro He. unfold ee_of_f.
  pose proof (sqrt_inv_ratio_pos e ltac:(lra)) as Hq.
  destruct (Req_EM_T (cos (f / 2)) 0) as [H|H].
  - rewrite np_tan_pole by assumption. destruct (pole_values f H) as [_ ->].
    split; intro HH; [|lra]. exfalso.
    assert (0 < HUGE) by (unfold HUGE; lra).
    assert (HP : 0 < HUGE * sqrt ((1 - e) / (1 + e))) by (apply Rmult_lt_0_compat; auto).
    apply atan_increasing in HP. rewrite atan_0 in HP. lra.
  - rewrite np_tan_eq by assumption. rewrite (tan_half_sin f H).
    set (t := tan (f / 2)). destruct (atan_sign (t * sqrt ((1 - e) / (1 + e)))) as [HA _].
    assert (HD : 0 < 1 + t * t) by nra.
    assert (HS : 2 * t / (1 + t * t) < 0 <-> t < 0).
    { split; intro HH.
      - apply Rmult_lt_compat_r with (r := 1 + t * t) in HH; auto.
        unfold Rdiv in HH. rewrite Rmult_assoc, Rinv_l in HH by lra. lra.
      - apply Rmult_lt_reg_r with (1 + t * t); auto.
        unfold Rdiv. rewrite Rmult_assoc, Rinv_l by lra. lra. }
    rewrite HS. split; intro HH.
    + assert (atan (t * sqrt ((1 - e) / (1 + e))) < 0) by lra. apply HA in H0. nra.
    + assert (t * sqrt ((1 - e) / (1 + e)) < 0) by nra. apply HA in H0. lra.
Qed.

Lemma sin_f_secondary om : sin (3 * PI / 2 - om) = - cos om.
Proof.
  replace (3 * PI / 2 - om) with (PI / 2 - om + PI) by field.
  rewrite neg_sin, sin_shift. reflexivity.
Qed.

(** scalar secondary eclipse: inside the first period iff cos omega > 0 *)
Lemma secondary_range tp per e om : 0 <= e < 1 -> 0 < per ->
  (tp <= timeperi_to_timetrans tp per e om true < tp + per <-> 0 < cos om).
Proof.
  intros He Hp. rewrite timetrans_bound_form by lra. cbn [conj_f].
  pose proof (ee_sign e (3 * PI / 2 - om) He) as HS. rewrite sin_f_secondary in HS.
  pose proof (ee_range e (3 * PI / 2 - om)) as HR.
  pose proof (mean_range e _ He HR) as HM.
  set (ee := ee_of_f e (3 * PI / 2 - om)) in *.
  pose proof PI_RGT_0 as HPI.
  replace (tp + per / (2 * PI) * (ee + 2 * PI - e * sin ee))
    with (tp + per + per / (2 * PI) * (ee - e * sin ee)) by (field; lra).
  assert (HK : 0 < per / (2 * PI)) by (apply Rdiv_lt_0_compat; lra).
  assert (HKP : per / (2 * PI) * PI = per / 2) by (field; lra).
  split.
  - intros [_ H]. assert (ee < 0); [|lra].
    destruct (Rle_dec 0 ee) as [Hee|Hee]; [|lra].
    assert (0 <= ee - e * sin ee).
    { destruct (Req_dec ee 0) as [->|]; [rewrite sin_0; lra|].
      pose proof (kepler_mono e 0 ee He ltac:(lra)). rewrite sin_0 in H1. lra. }
    nra.
  - intro H. assert (Hee : ee < 0) by (apply HS; lra).
    pose proof (kepler_mono e ee 0 He Hee) as HK0. rewrite sin_0 in HK0.
    split; nra.
Qed.

(** it always lies between half a period and one and a half periods after tp *)
Lemma secondary_range_all tp per e om : 0 <= e < 1 -> 0 < per ->
  tp + per / 2 < timeperi_to_timetrans tp per e om true < tp + 3 * per / 2.
Proof.
  intros He Hp. rewrite timetrans_bound_form by lra. cbn [conj_f].
  pose proof (mean_range e _ He (ee_range e (3 * PI / 2 - om))) as HM.
  set (ee := ee_of_f e (3 * PI / 2 - om)) in *.
  pose proof PI_RGT_0 as HPI.
  replace (tp + per / (2 * PI) * (ee + 2 * PI - e * sin ee))
    with (tp + per + per / (2 * PI) * (ee - e * sin ee)) by (field; lra).
  assert (HK : 0 < per / (2 * PI)) by (apply Rdiv_lt_0_compat; lra).
  assert (HKP : per / (2 * PI) * PI = per / 2) by (field; lra).
  split; nra.
Qed.

Lemma secondary_refuted : exists tp per e om, 0 <= e < 1 /\ 0 < per /\
  ~ (tp <= timeperi_to_timetrans tp per e om true < tp + per).
Proof.
  exists 0, 1, 0, PI. split; [lra|]. split; [lra|].
  rewrite secondary_range by lra. rewrite cos_PI. lra.
Qed.

(** ** array branch *)
Lemma filter_all_true (l : list bool) : (forall b, In b l -> b = true) ->
  filter (fun b => b) l = l.
Proof.
  induction l as [|b l IH]; cbn; intro H; auto.
  rewrite (H b) by auto. f_equal. apply IH. auto.
Qed.

Lemma filter_length_le {A} (f : A -> bool) l : (length (filter f l) <= length l)%nat.
Proof. induction l; cbn; auto. destruct (f a); cbn; lia. Qed.

Lemma filter_length_eq (l : list bool) : length (filter (fun b => b) l) = length l ->
  forall b, In b l -> b = true.
Proof.
  induction l as [|b l IH]; cbn; [easy|].
  destruct b; cbn; intros H c [<-|Hc]; auto.
  - pose proof (filter_length_le (fun b => b) l). lia.
  - pose proof (filter_length_le (fun b => b) l). lia.
Qed.

Lemma scatter_all_true : forall mask a v, (forall b, In b mask -> b = true) ->
  length a = length mask -> length v = length mask -> scatter mask a v = v.
Proof.
  induction mask as [|b mask IH]; intros [|x a] [|y v]; cbn; try discriminate; auto.
  intros H H1 H2. rewrite (H b) by auto. f_equal. apply IH; auto.
Qed.

(** all planets have cos omega > 0: every entry is the scalar result *)
Lemma secondary_array_ok tps pers es oms :
  length pers = length tps -> length es = length tps -> length oms = length tps ->
  (forall e, In e es -> 0 <= e < 1) -> (forall om, In om oms -> 0 < cos om) ->
  exists l, timeperi_to_timetrans_secondary_array tps pers es oms = Ok l /\ length l = length tps /\
    forall i tp per e om, nth_error tps i = Some tp -> nth_error pers i = Some per ->
      nth_error es i = Some e -> nth_error oms i = Some om ->
      nth_error l i = Some (timeperi_to_timetrans tp per e om true).
Proof.
  intros L1 L2 L3 He Hom. unfold timeperi_to_timetrans_secondary_array.
  assert (HB : match es with [x] => rleb 1 x | _ => false end = false).
  { destruct es as [|x [|]]; auto. apply rleb_false. apply He. cbn; auto. }
  rewrite HB.
  set (ee := map2 (fun ec om => ee_of_f ec (3 * PI / 2 - om)) es oms).
  assert (Lee : length ee = length tps) by (unfold ee; rewrite map2_length; lia).
  assert (Hneg : forall b, In b (map (fun x => rltb x 0) ee) -> b = true).
  { intros b Hb. apply in_map_iff in Hb as [x [<- Hx]]. apply rltb_true.
    apply In_nth_error in Hx as [i Hi].
    assert (i < length tps)%nat by (rewrite <- Lee; apply nth_error_Some; congruence).
    destruct (nth_error es i) as [e|] eqn:Ee; [|apply nth_error_None in Ee; lia].
    destruct (nth_error oms i) as [om|] eqn:Eo; [|apply nth_error_None in Eo; lia].
    unfold ee in Hi. rewrite (nth_error_map2 _ _ _ _ _ _ Ee Eo) in Hi. inversion Hi.
    apply ee_sign; [apply He; eapply nth_error_In; eauto|].
    rewrite sin_f_secondary. assert (0 < cos om) by (apply Hom; eapply nth_error_In; eauto). lra. }
  unfold np_mask_assign. rewrite (filter_all_true _ Hneg), !map_length, Nat.eqb_refl.
  rewrite scatter_all_true by (auto; now rewrite ?map_length). cbn [bind].
  eexists. split; [reflexivity|]. split.
  { rewrite map2_length; auto. rewrite map3_length; rewrite ?map_length; lia. }
  intros i tp per e om Htp Hper Hee Hom'.
  assert (Hx := nth_error_map2 (fun ec om => ee_of_f ec (3 * PI / 2 - om)) _ _ _ _ _ Hee Hom').
  fold ee in Hx. apply (map_nth_error (fun x => x + 2 * PI)) in Hx.
  erewrite nth_error_map2; [|eassumption|eapply nth_error_map3; eassumption].
  unfold timeperi_to_timetrans. rewrite (proj2 (rleb_false 1 e)); [reflexivity|].
  apply He. eapply nth_error_In; eauto.
Qed.

(** several planets, some with cos omega <= 0: ValueError *)
Lemma secondary_array_error tps pers es oms om :
  length pers = length tps -> length es = length tps -> length oms = length tps ->
  (2 <= length tps)%nat ->
  (forall e, In e es -> 0 <= e < 1) -> In om oms -> cos om <= 0 ->
  timeperi_to_timetrans_secondary_array tps pers es oms = Err ValueError.
Proof.
  intros L1 L2 L3 L4 He Hin Hom. unfold timeperi_to_timetrans_secondary_array.
  assert (HB : match es with [x] => rleb 1 x | _ => false end = false).
  { destruct es as [|x [|]]; auto. cbn in L2. lia. }
  rewrite HB.
  set (ee := map2 (fun ec om => ee_of_f ec (3 * PI / 2 - om)) es oms).
  assert (Lee : length ee = length tps) by (unfold ee; rewrite map2_length; lia).
  unfold np_mask_assign. rewrite !map_length, Lee.
  destruct (Nat.eqb_spec (length tps) (length (filter (fun b => b) (map (fun x => rltb x 0) ee)))) as [HF|_].
  - exfalso. assert (HA := filter_length_eq (map (fun x => rltb x 0) ee)).
    rewrite map_length, Lee in HA. specialize (HA (eq_sym HF)).
    apply In_nth_error in Hin as [i Hi].
    assert (i < length tps)%nat by (rewrite <- L3; apply nth_error_Some; congruence).
    destruct (nth_error es i) as [e|] eqn:Ee; [|apply nth_error_None in Ee; lia].
    assert (Hx := nth_error_map2 (fun ec om => ee_of_f ec (3 * PI / 2 - om)) _ _ _ _ _ Ee Hi).
    fold ee in Hx. apply (map_nth_error (fun x => rltb x 0)) in Hx. apply nth_error_In in Hx.
    apply HA in Hx. apply rltb_true in Hx. apply ee_sign in Hx; [|apply He; eapply nth_error_In; eauto].
    rewrite sin_f_secondary in Hx. lra.
  - destruct (Nat.eqb_spec (length tps) 1); [lia|reflexivity].
Qed.

Lemma at_transit_inverse tc per e om : 0 <= e < 1 -> per <> 0 ->
  cos ((PI / 2 - om) / 2) <> 0 ->
  is_true_anomaly_at per (timetrans_to_timeperi tc per e om) e tc (PI / 2 - om).
Proof.
  intros He Hp Hc.
  pose proof (at_transit (timetrans_to_timeperi tc per e om) per e om false He Hp Hc) as H.
  rewrite round_trip_tc in H. exact H.
Qed.
