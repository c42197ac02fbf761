(** Convergence of the Danby iteration for moderate eccentricities. *)
From Coq Require Import Reals List Bool ZArith Lra Lia Psatz.
From Coquelicot Require Import Coquelicot.
From Verif Require Import Py PyFacts Kepler KeplerProofs KeplerSpec TrigFacts.
Import ListNotations.
Open Scope R_scope.

Lemma cos_lipschitz a b : Rabs (cos b - cos a) <= Rabs (b - a).
Proof. rewrite <- !sin_shift. pose proof (sin_lipschitz (PI/2 - a) (PI/2 - b)) as H.
  replace (PI / 2 - b - (PI / 2 - a)) with (- (b - a)) in H by ring. now rewrite Rabs_Ropp in H.
Qed.

Lemma sin_taylor2_pos E d : 0 <= d -> Rabs (sin (E + d) - sin E - d * cos E) <= d * d / 2.
Proof.
  intro Hd. destruct (Req_dec d 0) as [->|Hd0].
  { rewrite Rplus_0_r. replace (sin E - sin E - 0 * cos E) with 0 by ring. rewrite Rabs_R0. lra. }
  assert (0 < d) by lra.
  apply Rabs_le. split.
  - destruct (MVT_cor2 (fun x => x * x / 2 + (sin (E + x) - sin E - x * cos E))
        (fun x => x + (cos (E + x) - cos E)) 0 d) as [c [Hc Hcd]]; auto.
    + intros c _. apply is_derive_Reals. auto_derive; auto. field.
    + rewrite Rplus_0_r in Hc.
      pose proof (cos_lipschitz E (E + c)) as HL.
      replace (E + c - E) with c in HL by ring. rewrite (Rabs_pos_eq c) in HL by lra.
      apply Rcomplements.Rabs_le_between in HL.
      assert (0 <= (c + (cos (E + c) - cos E)) * (d - 0)) by (apply Rmult_le_pos; lra). lra.
  - destruct (MVT_cor2 (fun x => x * x / 2 - (sin (E + x) - sin E - x * cos E))
        (fun x => x - (cos (E + x) - cos E)) 0 d) as [c [Hc Hcd]]; auto.
    + intros c _. apply is_derive_Reals. auto_derive; auto. field.
    + rewrite Rplus_0_r in Hc.
      pose proof (cos_lipschitz E (E + c)) as HL.
      replace (E + c - E) with c in HL by ring. rewrite (Rabs_pos_eq c) in HL by lra.
      apply Rcomplements.Rabs_le_between in HL.
      assert (0 <= (c - (cos (E + c) - cos E)) * (d - 0)) by (apply Rmult_le_pos; lra). lra.
Qed.

Lemma sin_taylor2 E d : Rabs (sin (E + d) - sin E - d * cos E) <= d * d / 2.
Proof.
  destruct (Rle_dec 0 d) as [H|H]; [now apply sin_taylor2_pos|].
  pose proof (sin_taylor2_pos (- E) (- d) ltac:(lra)) as HP.
  replace (- E + - d) with (- (E + d)) in HP by ring.
  rewrite !sin_neg, cos_neg in HP.
  replace (- sin (E + d) - - sin E - - d * cos E) with (- (sin (E + d) - sin E - d * cos E)) in HP by ring.
  rewrite Rabs_Ropp in HP. lra.
Qed.

Lemma Rabs_div_le a b x y : Rabs a <= x -> 0 < y -> y <= b -> Rabs (- a / b) <= x / y.
Proof.
  intros Ha Hy Hb. unfold Rdiv. rewrite Rabs_mult, Rabs_Ropp.
  rewrite (Rabs_pos_eq (/ b)) by (apply Rlt_le, Rinv_0_lt_compat; lra).
  apply Rmult_le_compat; auto using Rabs_pos.
  - apply Rlt_le, Rinv_0_lt_compat; lra.
  - apply Rinv_le_contravar; auto.
Qed.

(** one correction divides the residual by three *)
Lemma danby_contracts e M E : 0 <= e <= 3 / 10 -> Rabs (kepler_fi M e E) <= 1 / 3 ->
  Rabs (kepler_fi M e (danby e E (kepler_fi M e E))) <= Rabs (kepler_fi M e E) / 3.
Proof.
  intros He Hr. set (r := kepler_fi M e E) in *.
  unfold danby.
  set (fip := 1 - e * cos E). set (fipp := e * sin E).
  replace (1 - fip) with (e * cos E) by (unfold fip; ring).
  pose proof (COS_bound E) as HC. pose proof (SIN_bound E) as HS.
  assert (Hfip : 7 / 10 <= fip) by (unfold fip; nra).
  assert (Hfpp : -(3/10) <= fipp <= 3 / 10) by (unfold fipp; nra).
  assert (Hf3 : -(3/10) <= e * cos E <= 3 / 10) by nra.
  set (d1 := - r / fip).
  assert (H1 : Rabs d1 <= 10 / 21).
  { replace (10/21) with ((1/3) / (7/10)) by field. apply Rabs_div_le; lra. }
  apply Rcomplements.Rabs_le_between in H1.
  set (D2 := fip + d1 * fipp / 2).
  assert (HD2 : 62 / 100 <= D2) by (unfold D2; nra).
  set (d2 := - r / D2).
  assert (H2 : Rabs d2 <= 54 / 100).
  { apply Rle_trans with ((1/3) / (62/100)); [apply Rabs_div_le; lra|lra]. }
  apply Rcomplements.Rabs_le_between in H2.
  assert (H2s : 0 <= d2 * d2 <= 3/10) by nra.
  set (D3 := fip + d2 * fipp / 2 + d2 * d2 * (e * cos E) / 6).
  set (X := d2 * fipp / 2 + d2 * d2 * (e * cos E) / 6).
  assert (HX : Rabs X <= 97 / 1000).
  { assert (Rabs (d2 * fipp) <= 162/1000) by (apply Rabs_le; nra).
    assert (Rabs (d2 * d2 * (e * cos E)) <= 9/100) by (apply Rabs_le; nra).
    apply Rcomplements.Rabs_le_between in H, H0. unfold X. apply Rabs_le. lra. }
  assert (HD3 : 6 / 10 <= D3).
  { unfold D3. apply Rcomplements.Rabs_le_between in HX. unfold X in HX. lra. }
  set (d3 := - r / D3).
  assert (H3 : Rabs d3 <= Rabs r / (6/10)) by (apply Rabs_div_le; lra).
  assert (H3' : Rabs d3 <= 56/100) by lra.
  (* expansion of the new residual *)
  assert (HE : kepler_fi M e (E + d3) = - d3 * X - e * (sin (E + d3) - sin E - d3 * cos E)).
  { assert (Hr3 : r = - d3 * D3) by (unfold d3; field; lra).
    assert (HD : D3 = fip + X) by (unfold D3, X; ring).
    transitivity (r + d3 - e * (sin (E + d3) - sin E)).
    { unfold r, kepler_fi. ring. }
    rewrite Hr3, HD. unfold fip. ring. }
  rewrite HE.
  pose proof (sin_taylor2 E d3) as HT.
  set (Y := sin (E + d3) - sin E - d3 * cos E) in *.
  assert (HDD : d3 * d3 = Rabs d3 * Rabs d3) by (rewrite <- Rabs_mult, Rabs_pos_eq; nra).
  assert (Hd0 := Rabs_pos d3).
  eapply Rle_trans; [apply Rabs_triang|].
  rewrite Rabs_Ropp, !Rabs_mult, Rabs_Ropp, (Rabs_pos_eq e) by lra.
  assert (A1 : Rabs d3 * Rabs X <= Rabs d3 * (97/1000)) by (apply Rmult_le_compat_l; auto).
  assert (A2 : e * Rabs Y <= 3/10 * (Rabs d3 * (28/100))).
  { apply Rmult_le_compat; try lra; try apply Rabs_pos. nra. }
  (* total <= |d3| * (0.097 + 0.084) = 0.181 |d3| <= 0.302 |r| *)
  pose proof (Rabs_pos r). lra.
Qed.

Lemma solve1_terminates e M : 0 <= e <= 3/10 -> forall n E,
  Rabs (kepler_fi M e E) <= 1/3 -> Rabs (kepler_fi M e E) <= conv_tol * 3 ^ n ->
  exists E', solve1_loop (S n) M e E = Some E'.
Proof.
  intro He. induction n as [|n IH]; intros E H1 H2.
  - exists E. cbn. rewrite (proj2 (unconverged_false _)); auto. lra.
  - remember (S n) as k. cbn. destruct (unconverged (kepler_fi M e E)) eqn:U; [|eauto].
    subst k. pose proof (danby_contracts e M E He H1) as HC.
    pose proof (Rabs_pos (kepler_fi M e E)).
    apply IH; [lra|]. cbn [pow] in H2. lra.
Qed.

Lemma c_loop_terminates e M : 0 <= e <= 3/10 -> forall n E,
  Rabs (kepler_fi M e E) <= 1/3 -> Rabs (kepler_fi M e E) <= conv_tol * 3 ^ n ->
  exists E', c_kepler_loop (S (S n)) M e E = Ok E'.
Proof.
  intro He. induction n as [|n IH]; intros E H1 H2.
  - exists E. cbn. rewrite (proj2 (unconverged_false _)); auto. lra.
  - remember (S (S n)) as k. cbn. destruct (unconverged (kepler_fi M e E)) eqn:U; [|eauto].
    subst k. pose proof (danby_contracts e M E He H1) as HC.
    pose proof (Rabs_pos (kepler_fi M e E)).
    apply IH; [lra|]. cbn [pow] in H2. lra.
Qed.

(** the starting residuals *)
Lemma np_sign_bound x : Rabs (np_sign x) <= 1.
Proof.
  unfold np_sign. destruct (Rlt_dec x 0); [|destruct (Rlt_dec 0 x)]; apply Rabs_le; lra.
Qed.

Lemma np_sign_abs x : np_sign x * x = Rabs x.
Proof.
  unfold np_sign. destruct (Rlt_dec x 0); [rewrite Rabs_left; lra|].
  destruct (Rlt_dec 0 x); [rewrite Rabs_pos_eq; lra|]. replace x with 0 by lra. rewrite Rabs_R0. ring.
Qed.

Lemma py_guess_residual e M : 0 <= e <= 3/10 -> Rabs (kepler_fi M e (py_guess M e)) <= 1/3.
Proof.
  intro He. unfold kepler_fi, py_guess, guess_k.
  set (s := np_sign (sin M)). set (h := s * (85/100) * e).
  pose proof (np_sign_bound (sin M)) as Hs. fold s in Hs. apply Rcomplements.Rabs_le_between in Hs.
  pose proof (SIN_bound M) as HM.
  pose proof (sin_lipschitz M (M + h)) as HL.
  replace (M + h - M) with h in HL by ring.
  assert (Hh : Rabs h <= 85/100 * e) by (apply Rabs_le; unfold h; split; nra).
  assert (HD : -(85/100*e) <= sin (M + h) - sin M <= 85/100 * e).
  { apply Rcomplements.Rabs_le_between. lra. }
  replace (M + h - e * sin (M + h) - M) with (h - e * sin M - e * (sin (M + h) - sin M)) by ring.
  (* h and e sin M have the same sign *)
  assert (HS : Rabs (h - e * sin M) <= 85/100 * e).
  { pose proof (np_sign_abs (sin M)) as HA. fold s in HA. unfold h.
    unfold s, np_sign. apply Rabs_le.
    destruct (Rlt_dec (sin M) 0); [|destruct (Rlt_dec 0 (sin M))]; nra. }
  apply Rcomplements.Rabs_le_between in HS. apply Rabs_le. nra.
Qed.

Lemma c_sign_zero x : -1 < x < 1 -> c_sign x = 0.
Proof.
  intro H. unfold c_sign, c_trunc. destruct (Rlt_dec x 0).
  - assert (Int_part (- x) = 0%Z).
    { unfold Int_part. assert (HU : up (- x) = 1%Z) by (symmetry; apply tech_up; lra). rewrite HU. reflexivity. }
    rewrite H0. reflexivity.
  - assert (Int_part x = 0%Z).
    { unfold Int_part. assert (HU : up x = 1%Z) by (symmetry; apply tech_up; lra). rewrite HU. reflexivity. }
    rewrite H0. reflexivity.
Qed.

Lemma c_sign_one : c_sign 1 = 1.
Proof.
  unfold c_sign, c_trunc. destruct (Rlt_dec 1 0); [lra|].
  assert (Int_part 1 = 1%Z).
  { unfold Int_part. assert (HU : up 1 = 2%Z) by (symmetry; apply tech_up; lra). rewrite HU. reflexivity. }
  rewrite H. reflexivity.
Qed.

Lemma c_sign_mone : c_sign (-1) = -1.
Proof.
  unfold c_sign, c_trunc. destruct (Rlt_dec (-1) 0); [|lra].
  replace (- -1) with 1 by ring.
  assert (Int_part 1 = 1%Z).
  { unfold Int_part. assert (HU : up 1 = 2%Z) by (symmetry; apply tech_up; lra). rewrite HU. reflexivity. }
  rewrite H. reflexivity.
Qed.

Lemma c_guess_residual e M : 0 <= e <= 3/10 -> Rabs (kepler_fi M e (c_guess M e)) <= 1/3.
Proof.
  intro He. unfold kepler_fi, c_guess, guess_k.
  pose proof (SIN_bound M) as HM.
  destruct (Req_dec (sin M) 1) as [H1|H1]; [|destruct (Req_dec (sin M) (-1)) as [H2|H2]].
  - rewrite H1, c_sign_one.
    pose proof (sin_lipschitz M (M + 1 * (85/100) * e)) as HL.
    replace (M + 1 * (85/100) * e - M) with (85/100 * e) in HL by ring.
    rewrite (Rabs_pos_eq (85/100 * e)) in HL by lra.
    apply Rcomplements.Rabs_le_between in HL. rewrite H1 in HL.
    apply Rabs_le. nra.
  - rewrite H2, c_sign_mone.
    pose proof (sin_lipschitz M (M + -1 * (85/100) * e)) as HL.
    replace (M + -1 * (85/100) * e - M) with (- (85/100 * e)) in HL by ring.
    rewrite Rabs_Ropp, (Rabs_pos_eq (85/100 * e)) in HL by lra.
    apply Rcomplements.Rabs_le_between in HL. rewrite H2 in HL.
    apply Rabs_le. nra.
  - rewrite c_sign_zero by lra. rewrite Rmult_0_l, Rmult_0_l, Rplus_0_r.
    apply Rabs_le. nra.
Qed.

Lemma three_pow : 1 / 3 <= conv_tol * 3 ^ 28.
Proof. unfold conv_tol. lra. Qed.

Lemma solve1_terminates_py e M : 0 <= e <= 3/10 ->
  exists E, solve1_loop 29 M e (py_guess M e) = Some E.
Proof.
  intro He. pose proof (py_guess_residual e M He). pose proof three_pow.
  apply solve1_terminates; auto. lra.
Qed.

Lemma c_kepler_terminates e M : 0 <= e <= 3/10 -> exists E, c_kepler M e = Ok E.
Proof.
  intro He. pose proof (c_guess_residual e M He). pose proof three_pow.
  apply c_loop_terminates; auto. lra.
Qed.

Lemma kepler_terminates Ms es : length es = length Ms -> Ms <> [] ->
  (forall e, In e es -> 0 <= e <= 3/10) -> exists v, kepler 29 Ms es = Ok v.
Proof.
  intros L HN H. apply kepler_total; auto.
  intros i M e HM He. apply solve1_terminates_py. apply H. eapply nth_error_In; eauto.
Qed.
