From Coq Require Import Reals ZArith Bool Lia Lra.
From Flocq Require Import Core.
From Verif Require Import Py Dates.
Open Scope R_scope.

(** whole seconds since J2000.0 (noon of 2000-01-01) *)
Definition secs (d : datetime) : Z := ((total_us d - total_us j2000) / 1000000)%Z.
Definition whole_seconds (d : datetime) : Prop := (dt_us d mod 1000000 = 0)%Z.

Lemma total_j2000 : total_us j2000 = 63082411200000000%Z.
Proof. reflexivity. Qed.
Lemma total_mjd0 : total_us mjd0 = (total_us j2000 - 51544 * day_us - 43200000000)%Z.
Proof. reflexivity. Qed.

Lemma secs_split d : secs d = (td_days d * 86400 + td_seconds d)%Z /\ (0 <= td_seconds d < 86400)%Z.
Proof.
  unfold secs, td_days, td_seconds. set (x := (total_us d - total_us j2000)%Z).
  change day_us with (86400 * 1000000)%Z.
  pose proof (Z.mod_pos_bound x (86400 * 1000000) ltac:(lia)) as B.
  pose proof (Z.div_mod x (86400 * 1000000) ltac:(lia)) as E.
  set (q := (x / (86400 * 1000000))%Z) in *. set (r := (x mod (86400 * 1000000))%Z) in *.
  split.
  - rewrite E. replace (86400 * 1000000 * q + r)%Z with (r + q * 86400 * 1000000)%Z by lia.
    rewrite Z.div_add by lia. lia.
  - split; [apply Z.div_pos; lia|apply Z.div_lt_upper_bound; lia].
Qed.
Lemma whole_total d : whole_seconds d -> total_us d = (total_us j2000 + 1000000 * secs d)%Z.
Proof.
  unfold whole_seconds, secs. intro W. rewrite total_j2000.
  assert ((total_us d - 63082411200000000) mod 1000000 = 0)%Z as M.
  { unfold total_us, day_us. replace (dt_ord d * 86400000000 + dt_us d - 63082411200000000)%Z
      with (dt_us d + (dt_ord d * 86400 - 63082411200) * 1000000)%Z by lia. rewrite Z.mod_add by lia. exact W. }
  pose proof (Z.div_mod (total_us d - 63082411200000000) 1000000 ltac:(lia)). lia.
Qed.
Lemma total_inj d d' : dt_valid d -> dt_valid d' -> total_us d = total_us d' -> d = d'.
Proof.
  unfold dt_valid, total_us, day_us. destruct d as [o u], d' as [o' u']. cbn. intros [_ H] [_ H'] E.
  assert (o = o') by nia. subst. f_equal. lia.
Qed.

(** ** rounding-error analysis *)
Record err_bounds (rnd : R -> R) (e1 e2 e3 e4 : R) : Prop := {
  eb_int : forall n, (Z.abs n <= 2 ^ 53)%Z -> rnd (IZR n) = IZR n;
  eb_frac : forall x, 0 <= x < 1 -> Rabs (rnd x - x) <= e1;
  eb_jd : forall x, Rabs x < 2 ^ 23 -> Rabs (rnd x - x) <= e2;
  eb_mjd : forall x, Rabs x < 2 ^ 22 -> Rabs (rnd x - x) <= e3;
  eb_us : forall x, Rabs x < 2 ^ 37 -> Rabs (rnd x - x) <= e4;
  eb_small : 0 <= e1 /\ e1 + e2 + e3 <= / 1000000 }.

Definition jd_exact (d : datetime) : R := 2451545 + IZR (secs d) / 86400.
Lemma jd_exact_eq d : 2451545 + IZR (td_days d) + IZR (td_seconds d) / 86400 = jd_exact d.
Proof. unfold jd_exact. rewrite (proj1 (secs_split d)), plus_IZR, mult_IZR. field. Qed.

Lemma days_range d : dt_valid d -> (-730120 <= td_days d <= 2921939)%Z.
Proof.
  unfold dt_valid, td_days. rewrite total_j2000. unfold total_us, day_us. intros [H1 H2]. split.
  - apply Z.div_le_lower_bound; lia.
  - apply Z.lt_succ_r. apply Z.div_lt_upper_bound; lia.
Qed.

Section Errors.
Context (rnd : R -> R) (e1 e2 e3 e4 : R) (EB : err_bounds rnd e1 e2 e3 e4).

Lemma date2jd_error d : dt_valid d -> Rabs (date2jd rnd d - jd_exact d) <= e1 + e2.
Proof.
  intro V. pose proof (days_range d V) as D. pose proof (secs_split d) as [_ S].
  unfold date2jd. rewrite <- plus_IZR, (eb_int _ _ _ _ _ EB) by lia. rewrite plus_IZR.
  assert (0 <= IZR (td_seconds d) / 86400 < 1) as F.
  { split; [apply Rmult_le_pos; [apply IZR_le; lia|lra]|]. apply (Rmult_lt_reg_r 86400); [lra|]. unfold Rdiv.
    rewrite Rmult_assoc, Rinv_l, Rmult_1_r, Rmult_1_l by lra. apply IZR_lt; lia. }
  pose proof (eb_frac _ _ _ _ _ EB _ F) as E1. set (f := rnd (IZR (td_seconds d) / 86400)) in *.
  destruct (eb_small _ _ _ _ _ EB) as [P1 P2].
  assert (0 <= e2) as P3. { pose proof (eb_jd _ _ _ _ _ EB 0 ltac:(rewrite Rabs_R0; lra)). pose proof (Rabs_pos (rnd 0 - 0)). lra. }
  assert (0 <= e3) as P4. { pose proof (eb_mjd _ _ _ _ _ EB 0 ltac:(rewrite Rabs_R0; lra)). pose proof (Rabs_pos (rnd 0 - 0)). lra. }
  assert (IZR (-730120) <= IZR (td_days d) <= IZR 2921939) as D' by (split; apply IZR_le; lia).
  pose proof (Rabs_le_inv _ _ E1) as E1'. 
  assert (Rabs (2451545 + IZR (td_days d) + f) < 2 ^ 23) as B. { apply Rabs_def1; lra. }
  pose proof (eb_jd _ _ _ _ _ EB _ B) as E2. apply Rabs_le_inv in E2. rewrite <- jd_exact_eq. apply Rabs_le. lra.
Qed.

Lemma jd_range d : dt_valid d -> 1721424 <= jd_exact d <= 5373485.
Proof.
  intro V. pose proof (days_range d V) as D. pose proof (secs_split d) as [E S]. unfold jd_exact.
  assert (IZR (-730120 * 86400) <= IZR (secs d) <= IZR (2921940 * 86400)) as [L U] by (split; apply IZR_le; lia).
  rewrite mult_IZR in L, U. lra.
Qed.

Lemma Znearest_err y : Rabs (IZR (ZnearestE y) - y) <= / 2.
Proof. rewrite Rabs_minus_sym. apply Znearest_half. Qed.

Lemma trunc_frac x : Rabs (x - IZR (Ztrunc x)) < 1.
Proof.
  unfold Ztrunc. destruct (Rlt_bool_spec x 0).
  - pose proof (Zceil_ub x). pose proof (Zceil_floor_neq x). assert (IZR (Zceil x) < x + 1).
    { unfold Zceil. rewrite opp_IZR. pose proof (Zfloor_ub (- x)). lra. }
    apply Rabs_def1; lra.
  - pose proof (Zfloor_lb x). pose proof (Zfloor_ub x). apply Rabs_def1; lra.
Qed.

Lemma timedelta_error x : Rabs (IZR (timedelta_days rnd x) - IZR day_us * x) <= e4 + / 2.
Proof.
  unfold timedelta_days. rewrite plus_IZR, mult_IZR. set (ip := IZR (Ztrunc x)).
  assert (Rabs (IZR day_us * (x - ip)) < 2 ^ 37) as B.
  { rewrite Rabs_mult. pose proof (trunc_frac x) as T. fold ip in T. pose proof (Rabs_pos (x - ip)).
    rewrite (Rabs_pos_eq (IZR day_us)) by (apply IZR_le; discriminate). unfold day_us. nra. }
  pose proof (eb_us _ _ _ _ _ EB _ B) as E4. pose proof (Znearest_err (rnd (IZR day_us * (x - ip)))) as N.
  apply Rabs_le_inv in E4. apply Rabs_le_inv in N. apply Rabs_le. lra.
Qed.

(** the date recovered from date2jd, and its distance from the original *)
Lemma round_trip_error d : dt_valid d -> (2 <= dt_ord d)%Z -> whole_seconds d -> 0 <= e4 <= /4 ->
  exists d', jd2date rnd (date2jd rnd d) = Ok d' /\ dt_valid d' /\
    Rabs (IZR (total_us d' - total_us d)) <= IZR day_us * (e1 + e2 + e3) + e4 + / 2.
Proof.
  intros V O W P4. pose proof (date2jd_error d V) as EJ. pose proof (jd_range d V) as RJ. apply Rabs_le_inv in EJ.
  destruct (eb_small _ _ _ _ _ EB) as [P1 P2].
  assert (0 <= e3) as P3. { pose proof (eb_mjd _ _ _ _ _ EB 0 ltac:(rewrite Rabs_R0; lra)). pose proof (Rabs_pos (rnd 0 - 0)). lra. }
  unfold jd2date. set (jd := date2jd rnd d) in *.
  assert (Rabs (jd - 4800001 / 2) < 2 ^ 22) as B by (apply Rabs_def1; lra).
  pose proof (eb_mjd _ _ _ _ _ EB _ B) as EM. set (mjd := rnd (jd - 4800001 / 2)) in *.
  pose proof (timedelta_error mjd) as ET. set (us := timedelta_days rnd mjd) in *.
  apply Rabs_le_inv in EM. apply Rabs_le_inv in ET.
  assert (Rabs (IZR (total_us mjd0 + us - total_us d)) <= IZR day_us * (e1 + e2 + e3) + e4 + / 2) as Q.
  { rewrite (whole_total d W), total_mjd0. unfold jd_exact in *. rewrite !minus_IZR, !plus_IZR, !minus_IZR, !mult_IZR in *.
    unfold day_us in *. apply Rabs_le. lra. }
  set (t := (total_us mjd0 + us)%Z) in *.
  assert (Rabs (IZR (t - total_us d)) < IZR 86402) as Q'.
  { eapply Rle_lt_trans; [exact Q|]. unfold day_us. lra. }
  rewrite <- abs_IZR in Q'. apply lt_IZR in Q'.
  assert (1 <= t / day_us <= 3652059)%Z as RO.
  { unfold dt_valid, whole_seconds, total_us, day_us in *. destruct V as [V1 V2].
    assert (dt_us d <= 86400000000 - 1000000)%Z.
    { pose proof (Z.div_mod (dt_us d) 1000000 ltac:(lia)). nia. }
    split; [apply Z.div_le_lower_bound; lia|]. apply Z.lt_succ_r, Z.div_lt_upper_bound; lia. }
  exists (mkDT (t / day_us) (t mod day_us)).
  rewrite (proj2 (Z.leb_le 1 (t / day_us)) (proj1 RO)), (proj2 (Z.leb_le (t / day_us) 3652059) (proj2 RO)). cbn [andb].
  split; [reflexivity|]. split.
  - split; [exact RO|]. cbn. apply Z.mod_pos_bound. reflexivity.
  - unfold total_us at 1. cbn [dt_ord dt_us]. rewrite Z.mul_comm, <- Z.div_mod by discriminate. exact Q.
Qed.

Lemma date2jd_increasing d d' : dt_valid d -> dt_valid d' -> (secs d < secs d')%Z -> date2jd rnd d < date2jd rnd d'.
Proof.
  intros V V' L. pose proof (date2jd_error d V) as E. pose proof (date2jd_error d' V') as E'.
  apply Rabs_le_inv in E. apply Rabs_le_inv in E'. destruct (eb_small _ _ _ _ _ EB) as [P1 P2].
  assert (0 <= e3) as P3. { pose proof (eb_mjd _ _ _ _ _ EB 0 ltac:(rewrite Rabs_R0; lra)). pose proof (Rabs_pos (rnd 0 - 0)). lra. }
  unfold jd_exact in *. assert (IZR (secs d) + 1 <= IZR (secs d')) by (rewrite <- plus_IZR; apply IZR_le; lia). lra.
Qed.
End Errors.

(** ** exact arithmetic *)
Lemma exact_bounds : err_bounds exact 0 0 0 0.
Proof.
  split; unfold exact; intros; try (rewrite Rminus_eq_0, Rabs_R0; lra); auto. lra.
Qed.

Lemma exact_round_trip d : dt_valid d -> whole_seconds d -> jd2date exact (date2jd exact d) = Ok d.
Proof.
  intros V W.
  destruct (Z_le_gt_dec 2 (dt_ord d)) as [O|O].
  - destruct (round_trip_error exact 0 0 0 0 exact_bounds d V O W ltac:(lra)) as (d' & E & V' & B).
    rewrite E. f_equal. apply total_inj; auto.
    assert (Rabs (IZR (total_us d' - total_us d)) < 1) as B' by lra. rewrite <- abs_IZR in B'. apply lt_IZR in B'. lia.
  - (* first day: redo without the margin *)
    assert (date2jd exact d = jd_exact d) as EJ.
    { unfold date2jd, exact. apply jd_exact_eq. }
    unfold jd2date. rewrite EJ. change (exact (jd_exact d - 4800001 / 2)) with (jd_exact d - 4800001 / 2).
    pose proof (timedelta_error exact 0 0 0 0 exact_bounds (jd_exact d - 4800001 / 2)) as ET.
    set (us := timedelta_days exact (jd_exact d - 4800001 / 2)) in *.
    assert (total_us mjd0 + us = total_us d)%Z as ->.
    { assert (Rabs (IZR (total_us mjd0 + us - total_us d)) < 1) as B'.
      { eapply Rle_lt_trans with (0 + / 2); [|lra]. eapply Rle_trans; [|exact ET]. right. f_equal.
        rewrite (whole_total d W), total_mjd0. unfold jd_exact, day_us.
        rewrite !minus_IZR, !plus_IZR, !minus_IZR, !mult_IZR. field. }
      rewrite <- abs_IZR in B'. apply lt_IZR in B'. lia. }
    destruct V as [V1 V2]. assert (total_us d / day_us = dt_ord d)%Z as ->.
    { unfold total_us. rewrite Z.div_add_l by discriminate. rewrite Z.div_small by exact V2. lia. }
    rewrite (proj2 (Z.leb_le 1 (dt_ord d)) (proj1 V1)), (proj2 (Z.leb_le (dt_ord d) 3652059) (proj2 V1)). cbn [andb].
    f_equal. assert (total_us d mod day_us = dt_us d)%Z as ->.
    { unfold total_us. rewrite Z.add_comm, Z.mod_add by discriminate. apply Z.mod_small. exact V2. }
    destruct d; reflexivity.
Qed.

Lemma exact_date2jd d : date2jd exact d = 2451545 + IZR (secs d) / 86400.
Proof. unfold date2jd, exact. apply jd_exact_eq. Qed.

Lemma exact_day_shift d n : date2jd exact (mkDT (dt_ord d + n) (dt_us d)) = date2jd exact d + IZR n.
Proof.
  rewrite !exact_date2jd. unfold secs, total_us. cbn [dt_ord dt_us].
  replace ((dt_ord d + n) * day_us + dt_us d - (dt_ord j2000 * day_us + dt_us j2000))%Z
    with (dt_ord d * day_us + dt_us d - (dt_ord j2000 * day_us + dt_us j2000) + (n * 86400) * 1000000)%Z by (unfold day_us; lia).
  rewrite Z.div_add by lia. rewrite plus_IZR, mult_IZR. field.
Qed.

(** ** binary64 *)
Lemma fexp_valid : Valid_exp (FLT_exp (-1074) 53).
Proof. apply FLT_exp_valid. reflexivity. Qed.
#[local] Existing Instance fexp_valid.

Lemma rnd64_err x (e : Z) : (-1000 <= e)%Z -> Rabs x < bpow radix2 e -> Rabs (rnd64 x - x) <= / 2 * bpow radix2 (e - 53).
Proof.
  intros He Hx. unfold rnd64. eapply Rle_trans; [apply error_le_half_ulp; exact fexp_valid|].
  apply Rmult_le_compat_l; [lra|]. destruct (Req_dec x 0) as [->|N].
  - rewrite ulp_FLT_0; [|reflexivity]. apply bpow_le. lia.
  - rewrite ulp_neq_0 by auto. apply bpow_le. unfold cexp, FLT_exp. pose proof (mag_le_bpow radix2 x e N Hx). lia.
Qed.

Lemma rnd64_int n : (Z.abs n <= 2 ^ 53)%Z -> rnd64 (IZR n) = IZR n.
Proof.
  intro H. unfold rnd64. apply round_generic; [apply valid_rnd_N|].
  destruct (Z.eq_dec (Z.abs n) (2 ^ 53)) as [E|E].
  - assert (IZR n = F2R (Float radix2 (Z.sgn n) 53)) as ->.
    { unfold F2R. cbn [Fnum Fexp]. change (bpow radix2 53) with (IZR (2 ^ 53)). rewrite <- mult_IZR. f_equal. rewrite <- E. lia. }
    apply generic_format_FLT. eapply FLT_spec; [reflexivity| |cbn; lia].
    cbn [Fnum]. apply Z.le_lt_trans with 1%Z; [|reflexivity]. destruct n; cbn; lia.
  - replace (IZR n) with (F2R (Float radix2 n 0)) by (unfold F2R; cbn; ring).
    apply generic_format_FLT. eapply FLT_spec; [reflexivity| |cbn; lia]. cbn [Fnum]. change (radix_val radix2) with 2%Z. lia.
Qed.

Definition m64 (e : Z) : R := / 2 * bpow radix2 (e - 53).
Lemma rnd64_bounds : err_bounds rnd64 (m64 0) (m64 23) (m64 22) (m64 37).
Proof.
  split.
  - apply rnd64_int.
  - intros x H. apply rnd64_err; [lia|]. rewrite Rabs_pos_eq by lra. change (bpow radix2 0) with 1. lra.
  - intros x H. apply rnd64_err; [lia|]. change (bpow radix2 23) with (IZR (2 ^ 23)). cbn in H. lra.
  - intros x H. apply rnd64_err; [lia|]. change (bpow radix2 22) with (IZR (2 ^ 22)). cbn in H. lra.
  - intros x H. apply rnd64_err; [lia|]. change (bpow radix2 37) with (IZR (2 ^ 37)). cbn in H. lra.
  - unfold m64. cbn. lra.
Qed.

Lemma m64_total : IZR day_us * (m64 0 + m64 23 + m64 22) + m64 37 + / 2 <= 61.
Proof. unfold m64, day_us. cbn. lra. Qed.

Lemma round_trip64 d : dt_valid d -> (2 <= dt_ord d)%Z -> whole_seconds d ->
  exists d', jd2date rnd64 (date2jd rnd64 d) = Ok d' /\ dt_valid d' /\ (Z.abs (total_us d' - total_us d) <= 61)%Z.
Proof.
  intros V O W. destruct (round_trip_error rnd64 _ _ _ _ rnd64_bounds d V O W) as (d' & E & V' & B).
  { unfold m64. cbn. lra. }
  exists d'. split; auto. split; auto. pose proof m64_total. rewrite <- abs_IZR in B. apply le_IZR. lra.
Qed.
Lemma date2jd64_increasing d d' : dt_valid d -> dt_valid d' -> (secs d < secs d')%Z -> date2jd rnd64 d < date2jd rnd64 d'.
Proof. apply (date2jd_increasing rnd64 _ _ _ _ rnd64_bounds). Qed.

(** one second after noon of 2000-01-01 *)
Definition one_second : datetime := mkDT 730120 43201000000.

Lemma format_grid x : generic_format radix2 (FLT_exp (-1074) 53) x -> 2 ^ 21 <= x < 2 ^ 22 -> exists m, x = IZR m * bpow radix2 (-31).
Proof.
  intros F B. unfold generic_format in F. assert (cexp radix2 (FLT_exp (-1074) 53) x = -31)%Z as C.
  { unfold cexp. rewrite (mag_unique radix2 x 22).
    - reflexivity.
    - rewrite Rabs_pos_eq by lra. change (bpow radix2 (22 - 1)) with (IZR (2 ^ 21)). change (bpow radix2 22) with (IZR (2 ^ 22)). cbn in B. lra. }
  exists (Ztrunc (scaled_mantissa radix2 (FLT_exp (-1074) 53) x)). rewrite F at 1. unfold F2R. cbn [Fnum Fexp]. now rewrite C.
Qed.

Lemma grid_format k : (Z.abs k < 2 ^ 53)%Z -> rnd64 (IZR k * bpow radix2 (-31)) = IZR k * bpow radix2 (-31).
Proof.
  intro H. unfold rnd64. apply round_generic; [apply valid_rnd_N|].
  change (IZR k * bpow radix2 (-31)) with (F2R (Float radix2 k (-31))). apply generic_format_FLT.
  eapply FLT_spec; [reflexivity| |cbn; lia]. cbn [Fnum]. exact H.
Qed.

Lemma ok_fields a b d : Ok (mkDT a b) = Ok d -> a = dt_ord d /\ b = dt_us d.
Proof. intro H. inversion H. auto. Qed.
Lemma back_to (a q r : Z) : (a / day_us = q -> a mod day_us = r -> a = q * day_us + r)%Z.
Proof. intros <- <-. rewrite Z.mul_comm. apply Z.div_mod. discriminate. Qed.

Lemma round_trip64_moves : dt_valid one_second /\ whole_seconds one_second /\
  exists d', jd2date rnd64 (date2jd rnd64 one_second) = Ok d' /\ d' <> one_second.
Proof.
  assert (dt_valid one_second) as V by (unfold dt_valid, day_us; cbn [one_second dt_ord dt_us]; lia).
  assert (whole_seconds one_second) as W by reflexivity.
  split; auto. split; auto.
  destruct (round_trip64 one_second V ltac:(cbn; lia) W) as (d' & E & _ & _). exists d'. split; auto. intros ->.
  pose proof (date2jd_error rnd64 _ _ _ _ rnd64_bounds one_second V) as EJ. apply Rabs_le_inv in EJ.
  assert (jd_exact one_second = 2451545 + 1 / 86400) as XJ by reflexivity. rewrite XJ in EJ. clear XJ.
  assert (m64 0 + m64 23 <= / 1000000) as M by (unfold m64; cbn; lra).
  destruct (format_grid (date2jd rnd64 one_second)) as (m & Hm).
  { unfold date2jd, rnd64. apply generic_format_round; [exact fexp_valid|apply valid_rnd_N]. }
  { lra. }
  unfold jd2date in E. rewrite Hm in *. set (u := bpow radix2 (-31)) in *.
  assert (u = / 2147483648) as U by reflexivity.
  assert (IZR m * u - 4800001 / 2 = IZR (m - 5153961828941824) * u) as X.
  { rewrite minus_IZR, U. lra. }
  assert (Z.abs (m - 5153961828941824) < 2 ^ 53)%Z as K.
  { apply lt_IZR. rewrite abs_IZR. replace (IZR (m - 5153961828941824)) with ((IZR m * u - 4800001 / 2) * 2147483648).
    - change (2 ^ 53)%Z with 9007199254740992%Z; apply Rabs_def1; lra.
    - rewrite X, U. lra. }
  assert (rnd64 (IZR m * u - 4800001 / 2) = IZR m * u - 4800001 / 2) as RX by (rewrite X; now apply grid_format).
  rewrite RX in E.
  set (x := IZR m * u - 4800001 / 2) in *.
  assert (Ztrunc x = 51544)%Z as T.
  { rewrite Ztrunc_floor by (unfold x; lra). apply Zfloor_imp. rewrite plus_IZR. unfold x. lra. }
  unfold timedelta_days in E. rewrite T in E.
  assert (Rabs (IZR day_us * (x - 51544)) < 2 ^ 37) as B.
  { unfold day_us. apply Rabs_def1; unfold x; lra. }
  pose proof (eb_us _ _ _ _ _ rnd64_bounds _ B) as E4. set (y := rnd64 (IZR day_us * (x - 51544))) in *.
  pose proof (Znearest_err y) as N. set (z := ZnearestE y) in *.
  assert (z = 43201000000)%Z as Z.
  { destruct (_ && _)%bool eqn:Eb in E; [|discriminate]. apply ok_fields in E. destruct E as [E1 E2].
    pose proof (back_to _ _ _ E1 E2) as Ht.
    assert (total_us mjd0 = 678576 * day_us)%Z as T0 by reflexivity. rewrite T0 in Ht. clear - Ht.
    unfold one_second, dt_ord, dt_us in Ht. unfold day_us in Ht. lia. }
  rewrite Z in N. apply Rabs_le_inv in N. apply Rabs_le_inv in E4.
  assert (m64 37 <= / 100) as M4 by (unfold m64; cbn; lra).
  assert (Rabs (86400000000 * (x - 51544) - 43201000000) <= 51 / 100) as Q by (unfold day_us in *; apply Rabs_le; lra).
  assert (x - 51544 = IZR (m - 5264651726094336) * u) as X2.
  { unfold x. rewrite minus_IZR, U. lra. }
  rewrite X2, U in Q. set (j := (m - 5264651726094336)%Z) in *.
  assert (Rabs (IZR (86400000000 * j - 43201000000 * 2147483648)) < IZR 1100000000) as Q2.
  { rewrite minus_IZR, !mult_IZR. apply Rabs_le_inv in Q. apply Rabs_def1; lra. }
  rewrite <- abs_IZR in Q2. apply lt_IZR in Q2. lia.
Qed.
