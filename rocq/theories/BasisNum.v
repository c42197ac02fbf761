(** Numerical facts for basis conversion: arctan2 and the per-planet formulas. *)
From Coq Require Import Reals String Arith Lra Lia List.
From Verif Require Import Py PyFacts Params ParamsProofs ParamsSpec Kepler KeplerSpec TrigFacts RvProofs OrbitProofs Basis.
Import ListNotations.
Open Scope R_scope.

Lemma atan_cs x : cos (atan x) = / sqrt (1 + x ^ 2) /\ sin (atan x) = x / sqrt (1 + x ^ 2).
Proof.
  pose proof (atan_bound x) as B. set (a := atan x) in *.
  assert (0 < cos a) as Hc by (apply cos_gt_0; lra).
  assert (tan a = x) as Ht by apply tan_atan.
  unfold tan in Ht.
  assert (sin a = x * cos a) as Hs by (rewrite <- Ht; field; lra).
  pose proof (sin2_cos2 a) as H. unfold Rsqr in H. rewrite Hs in H.
  assert (0 < sqrt (1 + x ^ 2)) as Hq by (apply sqrt_lt_R0; nra).
  assert (cos a = / sqrt (1 + x ^ 2)) as E.
  { assert (cos a * sqrt (1 + x ^ 2) = 1).
    { replace (cos a) with (sqrt (cos a ^ 2)).
      - rewrite <- sqrt_mult; try nra. replace (cos a ^ 2 * (1 + x ^ 2)) with 1 by nra. apply sqrt_1.
      - apply sqrt_pow2. lra. }
    apply (Rmult_eq_reg_r (sqrt (1 + x ^ 2))); [|lra]. rewrite H0. field. lra. }
  split; auto. rewrite Hs, E. reflexivity.
Qed.

(** cosine and sine of [arctan2(y, x)] *)
Lemma arctan2_cs x y : x <> 0 \/ y <> 0 ->
  cos (np_arctan2 y x) = x / sqrt (x ^ 2 + y ^ 2) /\
  sin (np_arctan2 y x) = y / sqrt (x ^ 2 + y ^ 2).
Proof.
  intro H. unfold np_arctan2.
  assert (x <> 0 -> sqrt (1 + (y / x) ^ 2) = sqrt (x ^ 2 + y ^ 2) / Rabs x) as HS.
  { intro Hx. replace (1 + (y / x) ^ 2) with ((x ^ 2 + y ^ 2) / x ^ 2) by (field; auto).
    assert (0 < x ^ 2) by nra. rewrite sqrt_div by nra. f_equal.
    rewrite <- Rsqr_pow2. apply sqrt_Rsqr_abs. }
  assert (0 < sqrt (x ^ 2 + y ^ 2)) as HP.
  { apply sqrt_lt_R0. destruct H; nra. }
  destruct (Rlt_dec 0 x) as [Hx|Hx].
  { destruct (atan_cs (y / x)) as [-> ->]. rewrite HS by lra.
    rewrite Rabs_right by lra. split; field; lra. }
  destruct (Rlt_dec x 0) as [Hx'|Hx'].
  { destruct (Rle_dec 0 y).
    - rewrite neg_cos, neg_sin. destruct (atan_cs (y / x)) as [-> ->]. rewrite HS by lra.
      rewrite Rabs_left by lra. split; field; lra.
    - replace (atan (y / x) - PI) with (- (PI - atan (y / x))) by ring.
      rewrite cos_neg, sin_neg, Rtrigo_facts.cos_pi_minus, sin_PI_x.
      destruct (atan_cs (y / x)) as [-> ->]. rewrite HS by lra.
      rewrite Rabs_left by lra. split; field; lra. }
  assert (x = 0) as -> by lra.
  replace (0 ^ 2 + y ^ 2) with (y ^ 2) in * by ring.
  assert (sqrt (y ^ 2) = Rabs y) as E by (rewrite <- Rsqr_pow2; apply sqrt_Rsqr_abs).
  rewrite E in *. destruct (Rlt_dec 0 y) as [Hy|Hy].
  { rewrite cos_PI2, sin_PI2, Rabs_right by lra. split; field; lra. }
  destruct (Rlt_dec y 0) as [Hy'|Hy'].
  { rewrite cos_neg, sin_neg, cos_PI2, sin_PI2, Rabs_left by lra. split; field; lra. }
  exfalso. destruct H; lra.
Qed.

Lemma arctan2_polar r w : 0 < r ->
  cos (np_arctan2 (r * sin w) (r * cos w)) = cos w /\
  sin (np_arctan2 (r * sin w) (r * cos w)) = sin w.
Proof.
  intro Hr.
  assert (sqrt ((r * cos w) ^ 2 + (r * sin w) ^ 2) = r) as E.
  { replace ((r * cos w) ^ 2 + (r * sin w) ^ 2) with (r ^ 2 * (Rsqr (sin w) + Rsqr (cos w)))
      by (unfold Rsqr; ring). rewrite sin2_cos2, Rmult_1_r. apply sqrt_pow2. lra. }
  destruct (arctan2_cs (r * cos w) (r * sin w)) as [-> ->].
  - pose proof (sin2_cos2 w) as H. unfold Rsqr in H.
    destruct (Req_dec (cos w) 0) as [Hc|Hc]; [right|left]; apply Rmult_integral_contrapositive;
      split; try lra. intro Hs. rewrite Hc, Hs in H. lra.
  - rewrite E. split; field; lra.
Qed.

Lemma arctan2_00 : np_arctan2 0 0 = 0.
Proof.
  unfold np_arctan2.
  destruct (Rlt_dec 0 0) as [H|H]; [exfalso; revert H; apply Rlt_irrefl|]. reflexivity.
Qed.

Lemma arctan2_range x y : - PI < np_arctan2 y x <= PI.
Proof.
  pose proof PI_RGT_0. pose proof (atan_bound (y / x)). unfold np_arctan2.
  destruct (Rlt_dec 0 x); [lra|]. destruct (Rlt_dec x 0).
  - destruct (Rle_dec 0 y).
    + assert (atan (y / x) <= 0); [|lra].
      rewrite <- atan_0. destruct (Req_dec y 0) as [->|].
      * unfold Rdiv. rewrite Rmult_0_l. lra.
      * left. apply atan_increasing. assert (0 < y / - x) by (apply Rdiv_lt_0_compat; lra).
        replace (y / x) with (- (y / - x)) by (field; lra). lra.
    + assert (0 < atan (y / x)); [|lra]. rewrite <- atan_0. apply atan_increasing.
      assert (0 < - y / - x) by (apply Rdiv_lt_0_compat; lra).
      replace (y / x) with (- y / - x) by (field; lra). lra.
  - destruct (Rlt_dec 0 y); [lra|]. destruct (Rlt_dec y 0); lra.
Qed.

(** angles with the same cosine and sine differ by a multiple of 2 pi *)
Lemma same_angle a b : cos a = cos b -> sin a = sin b -> exists n : Z, a = b + 2 * IZR n * PI.
Proof.
  intros Hc Hs.
  assert (cos (a - b) = 1) as H.
  { rewrite cos_minus, Hc, Hs. pose proof (sin2_cos2 b) as E. unfold Rsqr in E. lra. }
  assert (sin ((a - b) / 2) = 0) as H2.
  { pose proof (cos_2a_sin ((a - b) / 2)) as E.
    replace (2 * ((a - b) / 2)) with (a - b) in E by field. nra. }
  apply sin_eq_0_0 in H2. destruct H2 as [n Hn]. exists n. lra.
Qed.

Lemma timetrans_same_w tc per e w w' : cos w = cos w' -> sin w = sin w' ->
  timetrans_to_timeperi tc per e w = timetrans_to_timeperi tc per e w'.
Proof.
  intros Hc Hs. destruct (same_angle w w' Hc Hs) as [n ->].
  apply (om_period tc per e w' false n).
Qed.

Lemma is_rv_same_w per tp e w w' k t v : cos w = cos w' -> sin w = sin w' ->
  is_rv per tp e w k t v <-> is_rv per tp e w' k t v.
Proof.
  intros Hc Hs. unfold is_rv. split; intros (nu & H & ->); exists nu; split; auto;
    rewrite !cos_plus, Hc, Hs; ring.
Qed.

Lemma same_elements_orbit a b : same_elements a b -> same_orbit a b.
Proof.
  intros (E1 & E2 & E3 & E4 & E5 & E6). unfold same_orbit. repeat split; auto;
    rewrite E1, E2, E3, E4; apply is_rv_same_w; auto.
Qed.

Lemma same_elements_refl a : same_elements a a.
Proof. repeat split. Qed.

Lemma same_orbit_refl a : same_orbit a a.
Proof. repeat split; auto. Qed.

Lemma same_orbit_trans a b c : same_orbit a b -> same_orbit b c -> same_orbit a c.
Proof.
  intros (A1 & A2 & A3 & A4) (B1 & B2 & B3 & B4). repeat split; try congruence.
  - intro H. apply B4, A4, H.
  - intro H. apply A4, B4, H.
Qed.

(** circular orbit: the velocity is k cos(M + w) *)
Lemma is_rv_circular per tp w k t v :
  is_rv per tp 0 w k t v <-> v = k * cos (2 * PI * (t - tp) / per + w).
Proof.
  rewrite is_rv_V by lra. split.
  - intros (E & HE & ->). unfold is_ecc_anomaly in HE.
    destruct (mean_anomaly_unreduced per tp t) as [n Hn]. rewrite Hn.
    assert (E = mean_anomaly per tp t) as -> by lra.
    replace (mean_anomaly per tp t + 2 * IZR n * PI + w)
      with (mean_anomaly per tp t + w + 2 * IZR n * PI) by ring.
    rewrite cos_Zperiod. unfold V. rewrite cos_plus.
    replace (1 - 0 * 0) with 1 by ring. rewrite sqrt_1.
    field.
  - intros ->. exists (mean_anomaly per tp t). split; [unfold is_ecc_anomaly; ring|].
    destruct (mean_anomaly_unreduced per tp t) as [n Hn]. rewrite Hn.
    replace (mean_anomaly per tp t + 2 * IZR n * PI + w)
      with (mean_anomaly per tp t + w + 2 * IZR n * PI) by ring.
    rewrite cos_Zperiod. unfold V. rewrite cos_plus.
    replace (1 - 0 * 0) with 1 by ring. rewrite sqrt_1.
    field.
Qed.

Lemma ee_circular f : cos (f / 2) <> 0 -> cos (ee_of_f 0 f) = cos f /\ sin (ee_of_f 0 f) = sin f.
Proof.
  intro H. destruct (ee_true_anomaly 0 f) as [A B]; [lra|auto|].
  replace (1 - 0 * 0) with 1 in B by ring. rewrite sqrt_1 in B.
  rewrite A, B. split; field.
Qed.

(** a circular orbit whose argument of periastron is reset to 0 through its
    transit time keeps its velocity curve *)
Lemma circular_reset per tp w k : 0 < per -> cos ((PI / 2 - w) / 2) <> 0 ->
  same_orbit (mkEl per tp 0 w k)
    (mkEl per (timetrans_to_timeperi (timeperi_to_timetrans tp per 0 w false) per 0 0) 0 0 k).
Proof.
  intros Hp Hc. split; [|split; [|split]]; try reflexivity. cbn [el_per el_tp el_e el_w el_k].
  intros t v. rewrite !is_rv_circular.
  unfold timetrans_to_timeperi, timeperi_to_timetrans.
  rewrite (proj2 (rleb_false 1 0)) by lra.
  destruct (ee_circular _ Hc) as [C S].
  assert (cos ((PI / 2 - 0) / 2) <> 0) as Hc0.
  { replace ((PI / 2 - 0) / 2) with (PI / 4) by field. rewrite cos_PI4.
    apply Rgt_not_eq. apply Rdiv_lt_0_compat; [lra|apply sqrt_lt_R0; lra]. }
  destruct (ee_circular _ Hc0) as [C0 S0].
  set (ee := ee_of_f 0 (PI / 2 - w)) in *. set (e0 := ee_of_f 0 (PI / 2 - 0)) in *.
  replace (2 * PI * (t - (tp + per / (2 * PI) * (ee - 0 * sin ee) - per / (2 * PI) * (e0 - 0 * sin e0))) / per + 0)
    with (2 * PI * (t - tp) / per - ee + e0) by (field; split; [|lra]; pose proof PI_RGT_0; lra).
  assert (cos (2 * PI * (t - tp) / per - ee + e0) = cos (2 * PI * (t - tp) / per + w)) as ->; [|tauto].
  set (M := 2 * PI * (t - tp) / per).
  rewrite cos_plus, cos_minus, sin_minus, C, S, C0, S0.
  replace (PI / 2 - 0) with (PI / 2) by ring. rewrite cos_PI2, sin_PI2, cos_shift, sin_shift, cos_plus.
  ring.
Qed.

Lemma sq_polar r w : (r * cos w) ^ 2 + (r * sin w) ^ 2 = r ^ 2.
Proof.
  replace ((r * cos w) ^ 2 + (r * sin w) ^ 2) with (r ^ 2 * (Rsqr (sin w) + Rsqr (cos w)))
      by (unfold Rsqr; ring). rewrite sin2_cos2. ring.
Qed.

(** the formulas of to_synth undo the documented meaning *)
Lemma synth_round_trip b names el : In (b, names) FIT_BASES -> in_domain el ->
  exists el', synth_of b (fun p => Ok (meaning el p))
              = Ok (el_per el', el_tp el', el_e el', el_w el', el_k el') /\
    (In "w"%string names -> el' = el) /\
    (0 < el_e el -> same_elements el' el) /\
    (0 < el_e el \/ cos ((PI / 2 - el_w el) / 2) <> 0 -> same_orbit el el').
Proof.
  intros HF (Hp & Hk & He). destruct el as [per tp e w k]. cbn [el_per el_tp el_e el_w el_k] in *.
  assert (forall el' : elements, el' = mkEl per tp e w k ->
     (In "w"%string names -> el' = mkEl per tp e w k) /\
     (0 < e -> same_elements el' (mkEl per tp e w k)) /\
     (0 < e \/ cos ((PI / 2 - w) / 2) <> 0 -> same_orbit (mkEl per tp e w k) el')) as EXACT.
  { intros el' ->. repeat split; auto. }
  assert (forall w', (0 < e -> cos w' = cos w /\ sin w' = sin w) -> (e = 0 -> w' = 0) ->
     ~ In "w"%string names ->
     let el' := mkEl per (timetrans_to_timeperi (timeperi_to_timetrans tp per e w false) per e w') e w' k in
     (In "w"%string names -> el' = mkEl per tp e w k) /\
     (0 < e -> same_elements el' (mkEl per tp e w k)) /\
     (0 < e \/ cos ((PI / 2 - w) / 2) <> 0 -> same_orbit (mkEl per tp e w k) el')) as POLAR.
  { intros w' Hw H0 Hn. cbn zeta.
    assert (0 < e -> same_elements (mkEl per (timetrans_to_timeperi
       (timeperi_to_timetrans tp per e w false) per e w') e w' k) (mkEl per tp e w k)) as SE.
    { intro Hpos. destruct (Hw Hpos) as [C S]. unfold same_elements. cbn.
      rewrite (timetrans_same_w _ per e w' w C S), round_trip_tp. auto 10. }
    split; [tauto|]. split; [exact SE|]. intro Hc.
    destruct (Req_dec e 0) as [->|Hne].
    - rewrite (H0 eq_refl). apply circular_reset; auto. destruct Hc; [lra|auto].
    - assert (0 < e) as Hpos by lra. destruct (SE Hpos) as (A1 & A2 & A3 & A4 & A5 & A6).
      apply same_elements_orbit. repeat split; congruence. }
  assert (forall r, (0 < e -> 0 < r) -> (e = 0 -> r = 0) -> 
    (0 < e -> cos (np_arctan2 (r * sin w) (r * cos w)) = cos w /\
              sin (np_arctan2 (r * sin w) (r * cos w)) = sin w) /\
    (e = 0 -> np_arctan2 (r * sin w) (r * cos w) = 0)) as ANG.
  { intros r H1 H2. split; intro H; [apply arctan2_polar; auto|].
    rewrite (H2 H), !Rmult_0_l. apply arctan2_00. }
  assert (0 < e -> 0 < sqrt e) as HS1 by (intro; now apply sqrt_lt_R0).
  assert (e = 0 -> sqrt e = 0) as HS2 by (intros ->; apply sqrt_0).
  assert (sqrt e ^ 2 = e) as HSQ by (apply pow2_sqrt; lra).
  destruct (ANG (sqrt e) HS1 HS2) as [AS1 AS2].
  destruct (ANG e (fun H => H) (fun H => H)) as [AE1 AE2].
  Local Ltac fin P := split; [reflexivity|apply P]; auto; try reflexivity; try (cbn; intuition discriminate).
  cbn in HF. repeat (destruct HF as [HF|HF]; [inversion HF; subst b names; clear HF|]);
    [..|contradiction]; cbn -[np_arctan2 timetrans_to_timeperi timeperi_to_timetrans pow];
    rewrite ?sq_polar, ?HSQ, ?(sqrt_pow2 e) by lra; rewrite ?exp_ln by lra; rewrite ?round_trip_tp.
  - eexists (mkEl _ _ _ _ _). fin EXACT.
  - eexists (mkEl _ _ _ _ _). fin POLAR.
  - eexists (mkEl _ _ _ _ _). fin POLAR.
  - eexists (mkEl _ _ _ _ _). fin POLAR.
  - eexists (mkEl _ _ _ _ _). fin EXACT.
  - eexists (mkEl _ _ _ _ _). fin POLAR.
  - eexists (mkEl _ _ _ _ _). fin POLAR.
  - eexists (mkEl _ _ _ _ _). fin EXACT.
  - eexists (mkEl _ _ _ _ _). fin EXACT.
Qed.

(** the meaning of the elements computed by to_synth is what one started from *)
Definition in_range (names : list string) (val : string -> R) : Prop :=
  In "se"%string names -> 0 <= val "se"%string.

Definition positive_per_k (val : string -> R) (names : list string) : Prop :=
  (In "per"%string names -> 0 < val "per"%string) /\ (In "k"%string names -> 0 < val "k"%string).

Lemma meaning_round_trip b names val : In (b, names) FIT_BASES -> in_range names val ->
  exists el, synth_of b (fun p => Ok (val p))
             = Ok (el_per el, el_tp el, el_e el, el_w el, el_k el) /\
    (positive_per_k val names -> 0 < el_per el /\ 0 < el_k el) /\
    forall p, In p names -> meaning el p = val p.
Proof.
  intros HF HR.
  assert (forall x y, sqrt (x ^ 2 + y ^ 2) * cos (np_arctan2 y x) = x /\
                      sqrt (x ^ 2 + y ^ 2) * sin (np_arctan2 y x) = y) as POL.
  { intros x y. destruct (Req_dec x 0) as [->|Hx]; [destruct (Req_dec y 0) as [->|Hy]|].
    - rewrite arctan2_00. replace (0 ^ 2 + 0 ^ 2) with 0 by ring. rewrite sqrt_0. split; ring.
    - assert (0 < sqrt (0 ^ 2 + y ^ 2)) by (apply sqrt_lt_R0; nra).
      destruct (arctan2_cs 0 y) as [-> ->]; auto. split; field; lra.
    - assert (0 < sqrt (x ^ 2 + y ^ 2)) by (apply sqrt_lt_R0; nra).
      destruct (arctan2_cs x y) as [-> ->]; auto. split; field; lra. }
  assert (forall p l (x : string), In p (x :: l) -> p = x \/ In p l) as INV by (intros p l x []; auto).
  unfold in_range in HR.
  cbn in HF. repeat (destruct HF as [HF|HF]; [inversion HF; subst b names; clear HF|]);
    [..|contradiction]; cbn -[np_arctan2 timetrans_to_timeperi timeperi_to_timetrans pow];
    eexists (mkEl _ _ _ _ _); (split; [reflexivity|]); (split;
    [unfold positive_per_k; cbn; intros [A B]; split; try (apply A; tauto); try (apply B; tauto); apply exp_pos|]);
    cbn -[np_arctan2 timetrans_to_timeperi timeperi_to_timetrans pow];
    intros p Hp; repeat (destruct Hp as [Hp|Hp]; [subst p|]); try contradiction;
    cbn -[np_arctan2 timetrans_to_timeperi timeperi_to_timetrans pow];
    try reflexivity; try apply round_trip_tc; try apply ln_exp; try apply POL.
  apply sqrt_pow2. apply HR. cbn. tauto.
Qed.
