(** Soundness of the enclosures of DanbyBox.v. *)
From Coq Require Import Reals Bool List Uint63 Sint63 Lra Lia Psatz.
From Coquelicot Require Rcomplements.
From Verif Require Import Py Kepler KeplerSpec KeplerProofs DanbyProofs Enclose DanbyBox.
Import ListNotations.
Open Scope R_scope.

(** distance below the root [s] after one correction at distance [d] *)
Definition nx (e s d : R) : R := s - danby e (s - d) (kepler_fi (s - e * sin s) e (s - d)).

(** after at most [n] corrections every further one divides by four *)
Definition lands (e s : R) (n : nat) (d : R) : Prop :=
  exists m, (m <= n)%nat /\ forall j, Rabs (Nat.iter (m + j) (nx e s) d) <= (1 / 4) ^ j.

(** ** Remainders of the two series *)
Lemma trig_uw_pos d : 0 <= d <= 2 -> exists U W,
  1 / 24 - d * d / 720 <= U <= 1 / 24 /\ 1 / 120 - d * d / 5040 <= W <= 1 / 120 /\
  cos d = 1 - d * d / 2 + d * d * (d * d) * U /\
  sin d = d * (1 - d * d / 6 + d * d * (d * d) * W).
Proof.
  intros [D0 D2]. destruct (Req_dec d 0) as [->|N].
  { exists (1 / 24), (1 / 120). rewrite cos_0, sin_0. lra. }
  assert (F2 : INR (fact 2) = 2) by (cbn; lra).
  assert (F3 : INR (fact 3) = 6) by (cbn; lra).
  assert (F4 : INR (fact 4) = 24) by (cbn; lra).
  assert (F5 : INR (fact 5) = 120) by (exact (fact_step _ _ _ F4 eq_refl)).
  assert (F6 : INR (fact 6) = 720) by (exact (fact_step _ _ _ F5 eq_refl)).
  assert (F7 : INR (fact 7) = 5040) by (exact (fact_step _ _ _ F6 eq_refl)).
  destruct (pre_cos_bound d 0 ltac:(lra) ltac:(lra)) as [_ CU].
  destruct (pre_cos_bound d 1 ltac:(lra) ltac:(lra)) as [CL _].
  destruct (pre_sin_bound d 0 ltac:(lra) ltac:(lra)) as [_ SU].
  destruct (pre_sin_bound d 1 ltac:(lra) ltac:(lra)) as [SL _].
  assert (C2 : cos_approx d (2 * (0 + 1)) = 1 - d * d / 2 + d * d * (d * d) / 24).
  { unfold cos_approx. change (2 * (0 + 1))%nat with 2%nat. cbn [sum_f_R0]. unfold cos_term.
    change (2 * 0)%nat with 0%nat. change (2 * 1)%nat with 2%nat. change (2 * 2)%nat with 4%nat.
    rewrite F2, F4. change (INR (fact 0)) with 1. cbn [pow]. field. }
  assert (C3 : cos_approx d (2 * 1 + 1) = 1 - d * d / 2 + d * d * (d * d) / 24 - d * d * (d * d) * (d * d) / 720).
  { unfold cos_approx. change (2 * 1 + 1)%nat with 3%nat. cbn [sum_f_R0]. unfold cos_term.
    change (2 * 0)%nat with 0%nat. change (2 * 1)%nat with 2%nat. change (2 * 2)%nat with 4%nat.
    change (2 * 3)%nat with 6%nat. rewrite F2, F4, F6. change (INR (fact 0)) with 1. cbn [pow]. field. }
  assert (S2 : sin_approx d (2 * (0 + 1)) = d * (1 - d * d / 6 + d * d * (d * d) / 120)).
  { unfold sin_approx. change (2 * (0 + 1))%nat with 2%nat. cbn [sum_f_R0]. unfold sin_term.
    change (2 * 0 + 1)%nat with 1%nat. change (2 * 1 + 1)%nat with 3%nat. change (2 * 2 + 1)%nat with 5%nat.
    rewrite F3, F5. change (INR (fact 1)) with 1. cbn [pow]. field. }
  assert (S3 : sin_approx d (2 * 1 + 1) = d * (1 - d * d / 6 + d * d * (d * d) / 120 - d * d * (d * d) * (d * d) / 5040)).
  { unfold sin_approx. change (2 * 1 + 1)%nat with 3%nat. cbn [sum_f_R0]. unfold sin_term.
    change (2 * 0 + 1)%nat with 1%nat. change (2 * 1 + 1)%nat with 3%nat. change (2 * 2 + 1)%nat with 5%nat.
    change (2 * 3 + 1)%nat with 7%nat. rewrite F3, F5, F7. change (INR (fact 1)) with 1. cbn [pow]. field. }
  rewrite C2 in CU. rewrite C3 in CL. rewrite S2 in SU. rewrite S3 in SL.
  assert (P4 : 0 < d * d * (d * d)) by (assert (0 < d * d) by nra; nra).
  assert (P5 : 0 < d * (d * d * (d * d))) by (apply Rmult_lt_0_compat; lra).
  set (q4 := d * d * (d * d)) in *.
  exists ((cos d - 1 + d * d / 2) / q4), ((sin d - d * (1 - d * d / 6)) / (d * q4)).
  set (U := (cos d - 1 + d * d / 2) / q4). set (W := (sin d - d * (1 - d * d / 6)) / (d * q4)).
  assert (EU : q4 * U = cos d - 1 + d * d / 2) by (unfold U; field; lra).
  assert (EW : d * q4 * W = sin d - d * (1 - d * d / 6)) by (unfold W; field; split; lra).
  repeat split.
  - apply Rmult_le_reg_l with q4; auto. rewrite EU. lra.
  - apply Rmult_le_reg_l with q4; auto. rewrite EU. lra.
  - apply Rmult_le_reg_l with (d * q4); auto. rewrite EW. lra.
  - apply Rmult_le_reg_l with (d * q4); auto. rewrite EW. lra.
  - rewrite EU. ring.
  - transitivity (d * (1 - d * d / 6) + d * q4 * W); [rewrite EW|]; ring.
Qed.

Lemma trig_uw d : -2 <= d <= 2 -> exists U W,
  1 / 24 - d * d / 720 <= U <= 1 / 24 /\ 1 / 120 - d * d / 5040 <= W <= 1 / 120 /\
  cos d = 1 - d * d / 2 + d * d * (d * d) * U /\
  sin d = d * (1 - d * d / 6 + d * d * (d * d) * W).
Proof.
  intro H. destruct (Rle_dec 0 d) as [P|P]; [apply trig_uw_pos; lra|].
  destruct (trig_uw_pos (- d)) as (U & W & HU & HW & C & Q); [lra|]. exists U, W.
  rewrite cos_neg in C. rewrite sin_neg in Q. 
  replace (- d * - d) with (d * d) in * by ring. repeat split; try lra. 
Qed.

(** ** One correction *)
Lemma residual e s d U W :
  let es := e * sin (s - d) in let ec := e * cos (s - d) in
  let Ds := 1 - ec + (es * d / 2 + ec * (d * d) / 6) - d * (d * d) * (es * U + ec * W * d) in
  cos d = 1 - d * d / 2 + d * d * (d * d) * U ->
  sin d = d * (1 - d * d / 6 + d * d * (d * d) * W) ->
  - kepler_fi (s - e * sin s) e (s - d) = d * Ds /\
  Ds = 1 - e * cos s * (1 - d * d / 6 + d * d * (d * d) * W) - e * sin s * (d * (1 / 2 - d * d * U)).
Proof.
  intros es ec Ds C Q.
  assert (SS : sin s = sin (s - d) * cos d + cos (s - d) * sin d).
  { replace s with ((s - d) + d) at 1 by ring. apply sin_plus. }
  assert (G : - kepler_fi (s - e * sin s) e (s - d) = d * Ds).
  { unfold kepler_fi, Ds, es, ec. rewrite SS, C, Q. field. }
  split; auto.
  destruct (Req_dec d 0) as [Z|N].
  { unfold Ds, ec, es. rewrite Z, Rminus_0_r. field. }
  apply (Rmult_eq_reg_l d); auto. rewrite <- G. unfold kepler_fi.
  assert (SM : sin (s - d) = sin s * cos d - cos s * sin d) by apply sin_minus.
  rewrite SM.
  transitivity (d - e * sin s * (1 - cos d) - e * cos s * sin d); [ring|]. rewrite C, Q. field.
Qed.

(** the factor, written as the code computes it and with its remainders *)
Lemma nx_factor e s d U W :
  let es := e * sin (s - d) in let ec := e * cos (s - d) in let p := 1 - ec in
  let a := es * d / 2 in let b := ec * (d * d) / 6 in
  let R := d * (d * d) * (es * U + ec * W * d) in
  let Ds := p + (a + b) - R in
  let o1 := Ds / p in let D2 := p + a * o1 in
  let o2 := Ds / D2 in let D3 := p + a * o2 + b * (o2 * o2) in
  cos d = 1 - d * d / 2 + d * d * (d * d) * U ->
  sin d = d * (1 - d * d / 6 + d * d * (d * d) * W) ->
  p <> 0 -> D2 <> 0 -> D3 <> 0 ->
  nx e s d = d * (1 - Ds / D3) /\
  o2 = 1 + (b - a * (o1 - 1) - R) / D2 /\
  1 - Ds / D3 = (a * (o2 - 1) + b * (o2 * o2 - 1) + R) / D3.
Proof.
  intros es ec p a b R Ds o1 D2 o2 D3 C Q P0 P2 P3.
  assert (G : - kepler_fi (s - e * sin s) e (s - d) = d * Ds) by (apply residual; auto).
  assert (HD2 : D2 = p + d * o1 * es / 2) by (unfold D2, a; field).
  assert (HD3 : D3 = p + d * o2 * es / 2 + d * o2 * (d * o2) * ec / 6) by (unfold D3, a, b; field).
  repeat split.
  - unfold nx, danby. fold es. fold ec. fold p. replace (1 - p) with ec by (unfold p; ring).
    rewrite G. replace (d * Ds / p) with (d * o1) by (unfold o1; field; auto).
    rewrite <- HD2. replace (d * Ds / D2) with (d * o2) by (unfold o2; field; auto).
    rewrite <- HD3. field. auto.
  - unfold o2. apply (Rmult_eq_reg_r D2); auto.
    transitivity Ds; [field; auto|]. transitivity (D2 + (b - a * (o1 - 1) - R)); [|field; auto].
    unfold D2, Ds. ring.
  - apply (Rmult_eq_reg_r D3); auto. transitivity (D3 - Ds); [field; auto|].
    transitivity (a * (o2 - 1) + b * (o2 * o2 - 1) + R); [|field; auto].
    unfold D3, Ds. ring.
Qed.

Lemma rho_sound ie ieS ieC is J e s d f1 f2 :
  inside ie e -> inside ieS (e * sin s) -> inside ieC (e * cos s) -> inside is s -> inside J d ->
  -2 <= d <= 2 -> rho ie ieS ieC is J = Iv f1 f2 ->
  exists q, inside (Iv f1 f2) q /\ nx e s d = d * q.
Proof.
  intros He HS HC Hs HJ Hd. unfold rho.
  destruct (trig_uw d Hd) as (U & W & BU & BW & EC & ES).
  set (iE := sub is J). assert (IE : inside iE (s - d)) by (apply sub_inside; auto).
  set (ies := mul ie (sini iE)).
  assert (Ies : inside ies (e * sin (s - d))) by (apply mul_inside; auto using sini_inside).
  set (iec := mul ie (cosi iE)).
  assert (Iec : inside iec (e * cos (s - d))) by (apply mul_inside; auto using cosi_inside).
  clearbody ies iec. clear IE. clear iE.
  set (es := e * sin (s - d)) in *. set (ec := e * cos (s - d)) in *.
  set (ip := sub i1 iec). assert (Ip : inside ip (1 - ec)) by (apply sub_inside; auto using one_inside).
  clearbody ip. set (p := 1 - ec) in *.
  destruct (pos ip) eqn:Pp; [|discriminate]. cbn [negb]. pose proof (pos_inside _ _ Pp Ip) as P0.
  assert (Id2 : inside (sq J) (d * d)) by (apply sq_inside; auto).
  destruct (sq J) as [|l2 h2] eqn:EJ2; [discriminate|]. rewrite <- EJ2 in *.
  assert (Iz : forall y, 0 <= y <= d * d -> inside (mk 0 h2) y).
  { intros y Y. apply mk_inside. rewrite v_0. rewrite EJ2 in Id2. destruct Id2 as (_ & _ & B). lra. }
  clear EJ2. generalize dependent (sq J). intros id2 Id2.
  set (iz := mk 0 h2) in *. clearbody iz.
  assert (IU : inside (sub (cdiv i1 24) (cdiv iz 720)) U).
  { replace U with (1 / 24 - 720 * (1 / 24 - U) / 720) by field.
    apply sub_inside; [apply (cdiv_inside i1 24 1 eq_refl one_inside)|].
    apply (cdiv_inside iz 720 _ eq_refl). apply Iz. lra. }
  assert (IW : inside (sub (cdiv i1 120) (cdiv iz 5040)) W).
  { replace W with (1 / 120 - 5040 * (1 / 120 - W) / 5040) by field.
    apply sub_inside; [apply (cdiv_inside i1 120 1 eq_refl one_inside)|].
    apply (cdiv_inside iz 5040 _ eq_refl). apply Iz. lra. }
  set (iU := sub (cdiv i1 24) (cdiv iz 720)) in *. clearbody iU.
  set (iW := sub (cdiv i1 120) (cdiv iz 5040)) in *. clearbody iW. clear iz Iz.
  set (iB := add (sub i1 (cdiv id2 6)) (mul (sq id2) iW)).
  assert (IB : inside iB (1 - d * d / 6 + d * d * (d * d) * W)).
  { apply add_inside; [apply sub_inside; [apply one_inside|apply (cdiv_inside id2 6 _ eq_refl Id2)]|].
    apply mul_inside; auto using sq_inside. }
  set (iA := mul J (sub (half i1) (mul id2 iU))).
  assert (IA : inside iA (d * (1 / 2 - d * d * U))).
  { apply mul_inside; auto. apply sub_inside; [apply half_inside, one_inside|]. apply mul_inside; auto. }
  set (iR := mul (mul J id2) (add (mul ies iU) (mul (mul iec iW) J))).
  assert (IR : inside iR (d * (d * d) * (es * U + ec * W * d))).
  { apply mul_inside; [apply mul_inside; auto|]. apply add_inside; [apply mul_inside; auto|].
    apply mul_inside; auto. apply mul_inside; auto. }
  set (ia := half (mul ies J)).
  assert (Ia : inside ia (es * d / 2)) by (apply half_inside, mul_inside; auto).
  set (ib := cdiv (mul iec id2) 6).
  assert (Ib : inside ib (ec * (d * d) / 6)) by (apply (cdiv_inside (mul iec id2) 6 _ eq_refl), mul_inside; auto).
  clearbody iB iA iR ia ib. clear IU IW iU iW.
  set (iDs := inter (sub (sub i1 (mul ieC iB)) (mul ieS iA)) (sub (add ip (add ia ib)) iR)).
  pose proof (nx_factor e s d U W) as NX. cbv zeta in NX. fold es in NX. fold ec in NX. fold p in NX.
  set (a := es * d / 2) in *. set (b := ec * (d * d) / 6) in *.
  set (R := d * (d * d) * (es * U + ec * W * d)) in *.
  set (Ds := p + (a + b) - R) in *. set (D2 := p + a * (Ds / p)) in *. set (D3 := p + a * (Ds / D2) + b * (Ds / D2 * (Ds / D2))) in *.
  assert (DE : Ds = 1 - e * cos s * (1 - d * d / 6 + d * d * (d * d) * W) - e * sin s * (d * (1 / 2 - d * d * U))).
  { apply residual; auto. }
  assert (IDs : inside iDs Ds).
  { apply inter_inside.
    - rewrite DE. apply sub_inside; [apply sub_inside; [apply one_inside|]|]; apply mul_inside; auto.
    - unfold Ds. apply sub_inside; auto. apply add_inside; auto. apply add_inside; auto. }
  clearbody iDs.
  set (iD2 := add ip (mul ia (div iDs ip))).
  assert (Io1 : inside (div iDs ip) (Ds / p)) by (apply div_inside; auto).
  assert (ID2 : inside iD2 D2) by (apply add_inside; auto; apply mul_inside; auto).
  destruct (pos iD2) eqn:P2; [|discriminate]. cbn [negb]. pose proof (pos_inside _ _ P2 ID2) as Q2.
  clearbody iD2.
  match goal with |- context [inter (div iDs iD2) ?x] => set (io2 := inter (div iDs iD2) x) end.
  assert (O2 : Ds / D2 = 1 + (b - a * (Ds / p - 1) - R) / D2).
  { apply (Rmult_eq_reg_r D2); [|lra]. transitivity Ds; [field; lra|].
    transitivity (D2 + (b - a * (Ds / p - 1) - R)); [|field; lra]. unfold D2, Ds. ring. }
  assert (Io2 : inside io2 (Ds / D2)).
  { apply inter_inside; [apply div_inside; auto|]. rewrite O2.
    apply add_inside; [apply one_inside|]. apply div_inside; auto. apply sub_inside; auto.
    apply sub_inside; auto. apply mul_inside; auto. apply sub_inside; auto using one_inside. }
  clearbody io2.
  set (io22 := sq io2). assert (Io22 : inside io22 (Ds / D2 * (Ds / D2))) by (apply sq_inside; auto).
  clearbody io22.
  set (iD3 := add (add ip (mul ia io2)) (mul ib io22)).
  assert (ID3 : inside iD3 D3).
  { apply add_inside; [apply add_inside; auto|]; apply mul_inside; auto. }
  destruct (pos iD3) eqn:P3; [|discriminate]. cbn [negb]. pose proof (pos_inside _ _ P3 ID3) as Q3.
  clearbody iD3. intro Hr.
  destruct NX as (NE & _ & NN); auto; try lra.
  exists (1 - Ds / D3). split; auto. rewrite <- Hr. apply inter_inside.
  - rewrite NN. apply div_inside; auto. apply add_inside; auto.
    apply add_inside; apply mul_inside; auto; apply sub_inside; auto using one_inside.
  - apply sub_inside; [apply one_inside|]. apply div_inside; auto.
Qed.

(** ** Many corrections *)
Lemma iter_in {A} (f : A -> A) n x : Nat.iter (S n) f x = Nat.iter n f (f x).
Proof.
  induction n as [|n IH]; auto. change (f (Nat.iter (S n) f x) = f (Nat.iter n f (f x))).
  rewrite IH. reflexivity.
Qed.

Lemma last_indep {A} (l : list A) a b : l <> [] -> List.last l a = List.last l b.
Proof.
  induction l as [|x [|y l] IH]; intro H; [elim H; auto|reflexivity|].
  change (List.last (y :: l) a = List.last (y :: l) b). apply IH. discriminate.
Qed.

Lemma shrink e s r : 0 <= r <= 1 ->
  (forall d, Rabs d <= r -> Rabs (nx e s d) <= Rabs d / 4) ->
  forall d j, Rabs d <= r -> Rabs (Nat.iter j (nx e s) d) <= r /\ Rabs (Nat.iter j (nx e s) d) <= (1 / 4) ^ j.
Proof.
  intros Hr H d j D. induction j as [|j [I1 I2]].
  - cbn. lra.
  - pose proof (H _ I1) as K. pose proof (Rabs_pos (Nat.iter j (nx e s) d)).
    change (Nat.iter (S j) (nx e s) d) with (nx e s (Nat.iter j (nx e s) d)). cbn [pow]. lra.
Qed.

Section Box.
  Variables (ie ieS ieC is : iv) (e s : R).
  Hypotheses (He : inside ie e) (HS : inside ieS (e * sin s)) (HC : inside ieC (e * cos s)) (Hs : inside is s).

  Lemma captured_sound J d : captured ie ieS ieC is J = true -> inside J d ->
    forall j, Rabs (Nat.iter j (nx e s) d) <= (1 / 4) ^ j.
  Proof.
    destruct J as [|l h]; [discriminate|]. cbn [captured]. set (r := imax (- l) h).
    intros H (L & Hh & B). apply andb_true_iff in H. destruct H as [H1 H2].
    apply v_le in H1. replace (v one) with 1 in H1 by (unfold v; change (to_Z one) with 16777216%Z; lra).
    pose proof (imax_l (- l) h) as M1. pose proof (imax_r (- l) h) as M2. fold r in M1, M2.
    rewrite v_opp in M1 by auto.
    assert (D : Rabs d <= v r) by (apply Rabs_le; lra).
    assert (T : tame r) by (apply imax_case; auto using tame_opp).
    destruct (rho ie ieS ieC is (mk (- r) r)) as [|f1 f2] eqn:ER; [discriminate|].
    apply andb_true_iff in H2. destruct H2 as [F1 F2]. apply v_le in F1, F2.
    replace (v 4194304) with (1 / 4) in F2 by (unfold v; change (to_Z 4194304) with 4194304%Z; lra).
    replace (v (- 4194304)) with (- (1 / 4)) in F1 by (unfold v; change (to_Z (- 4194304)) with (-4194304)%Z; lra).
    intro j. apply (shrink e s (v r)); auto.
    { pose proof (Rabs_pos d). lra. }
    intros x X.
    assert (X2 : - v r <= x <= v r) by (apply Rcomplements.Rabs_le_between; auto).
    destruct (rho_sound ie ieS ieC is (mk (- r) r) e s x f1 f2) as (q & (_ & _ & Q) & ->); auto; try lra.
    { apply mk_inside. rewrite v_opp by auto. lra. }
    rewrite Rabs_mult. assert (Rabs q <= 1 / 4) by (apply Rabs_le; lra).
    pose proof (Rabs_pos x). pose proof (Rabs_pos q). nra.
  Qed.

  Lemma lands_now n d : (forall j, Rabs (Nat.iter j (nx e s) d) <= (1 / 4) ^ j) -> lands e s n d.
  Proof. intro H. exists 0%nat. split; [lia|]. exact H. Qed.

  Lemma lands_step n d : lands e s n (nx e s d) -> lands e s (S n) d.
  Proof.
    intros (m & M & H). exists (S m). split; [lia|]. intro j.
    replace (S m + j)%nat with (S (m + j)) by lia. rewrite iter_in. apply H.
  Qed.

  Lemma go_sound k : forall J n k2 d, go k ie ieS ieC is J n k2 = true -> inside J d -> lands e s n d.
  Proof.
    induction k as [|k IH]; intros J n k2 d; cbn [go]; [discriminate|].
    destruct J as [|l h]; [discriminate|]. destruct n as [|n]; [discriminate|].
    destruct (captured ie ieS ieC is (Iv l h)) eqn:C.
    { intros _ D. apply lands_now. eapply captured_sound; eauto. }
    match goal with |- (if ?b then _ else _) = _ -> _ => destruct b eqn:G end.
    - intros _ D. apply andb_true_iff in G. destruct G as [G1 G].
      apply andb_true_iff in G1. destruct G1 as [G1 G2]. apply v_le in G1, G2.
      replace (v 33554432) with 2 in G2 by (unfold v; change (to_Z 33554432) with 33554432%Z; lra).
      replace (v (- 33554432)) with (-2) in G1 by (unfold v; change (to_Z (- 33554432)) with (-33554432)%Z; lra).
      destruct (rho ie ieS ieC is (Iv l h)) as [|f1 f2] eqn:ER.
      { cbn [mul] in G. destruct k; discriminate. }
      destruct (rho_sound ie ieS ieC is (Iv l h) e s d f1 f2) as (q & Q & N); auto.
      { destruct D as (_ & _ & D). lra. }
      apply lands_step. rewrite N. apply (IH _ _ _ _ G). apply mul_inside; auto.
    - destruct k2 as [|k2]; [discriminate|]. intros H (L & Hh & D). apply andb_true_iff in H.
      destruct H as [H1 H2]. set (m := ((l + h) >> 1)%sint63) in *.
      destruct (Rle_dec d (v m)).
      + apply (IH _ _ _ _ H1). apply mk_inside. lra.
      + apply (IH _ _ _ _ H2). apply mk_inside. lra.
  Qed.
End Box.

Lemma sin0_inside is s : inside is s -> 0 <= sin s -> inside (sin0 is) (sin s).
Proof.
  intros H P. unfold sin0. pose proof (sini_inside _ _ H) as I.
  destruct (sini is) as [|a b]; auto. destruct I as (A & B & I). apply mk_inside.
  split; [|lra]. apply (imax_case _ _ (fun z => v z <= sin s)); [rewrite v_0|]; lra.
Qed.

Lemma check1_sound ie is e s : check1 ie is = true -> inside ie e -> inside is s -> 0 <= sin s ->
  lands e s 6 (e * sin s - 85 / 100 * e).
Proof.
  intros H He Hs P. unfold check1 in H.
  assert (HS : inside (mul ie (sin0 is)) (e * sin s)) by (apply mul_inside; auto using sin0_inside).
  refine (go_sound _ _ _ _ e s He HS _ Hs _ _ _ _ _ H _).
  - apply mul_inside; auto using cosi_inside.
  - apply sub_inside; auto. rewrite (Rmult_comm _ e). apply mul_inside; auto.
    cbn. unfold tame, v. change (to_Z 14260633) with 14260633%Z. change (to_Z 14260634) with 14260634%Z.
    repeat split; try lia; lra.
Qed.

Lemma mean_mono e s t : 0 <= e <= 1 -> s <= t -> s - e * sin s <= t - e * sin t.
Proof.
  intros E T. pose proof (sin_lipschitz s t) as L. rewrite (Rabs_pos_eq (t - s)) in L by lra.
  apply Rcomplements.Rabs_le_between in L. nra.
Qed.

Lemma mean_inside ie is e s : inside ie e -> inside is s -> 0 <= sin s -> inside (mean ie is) (s - e * sin s).
Proof.
  destruct ie as [|e1 e2], is as [|s1 s2]; cbn [mean]; auto. intros (E1 & E2 & HE) (S1 & S2 & HS) P.
  destruct (0 <=? e1)%sint63 eqn:C1; [|exact I]. destruct (e2 <=? one)%sint63 eqn:C2; [|exact I]. cbn [andb].
  apply le0 in C1. apply v_le in C2. replace (v one) with 1 in C2 by (unfold v; change (to_Z one) with 16777216%Z; lra).
  assert (I1 : inside (sub (pt s1) (mul (pt e2) (sinp s1))) (v s1 - v e2 * sin (v s1)))
    by (apply sub_inside; [apply pt_inside|apply mul_inside; auto using pt_inside, sinp_inside]).
  assert (I2 : inside (sub (pt s2) (mul (pt e1) (sinp s2))) (v s2 - v e1 * sin (v s2)))
    by (apply sub_inside; [apply pt_inside|apply mul_inside; auto using pt_inside, sinp_inside]).
  destruct (sub (pt s1) _) as [|l l2]; [exact I|]. destruct (sub (pt s2) _) as [|h2 h]; [exact I|].
  destruct I1 as (_ & _ & I1). destruct I2 as (_ & _ & I2). apply mk_inside.
  pose proof (mean_mono (v e2) (v s1) s). pose proof (mean_mono (v e1) s (v s2)). split; nra.
Qed.

Lemma first_inside ie im ieS e s : inside ie e -> inside im (s - e * sin s) -> inside ieS (e * sin s) ->
  first ie im ieS <> Top -> inside (first ie im ieS) (nx e s (e * sin s)).
Proof.
  intros He Hm HS. unfold first, nx, danby. set (m := s - e * sin s) in *.
  assert (F : - kepler_fi m e m = e * sin m) by (unfold kepler_fi; ring). rewrite F.
  set (ies := mul ie (sini im)). set (iec := mul ie (cosi im)).
  assert (Ies : inside ies (e * sin m)) by (apply mul_inside; auto using sini_inside).
  assert (Iec : inside iec (e * cos m)) by (apply mul_inside; auto using cosi_inside).
  set (es := e * sin m) in *. set (ec := e * cos m) in *. clearbody ies iec.
  set (ip := sub i1 iec). assert (Ip : inside ip (1 - ec)) by (apply sub_inside; auto using one_inside).
  clearbody ip. destruct (pos ip) eqn:P1; [|intro X; elim X; reflexivity]. cbn [negb].
  pose proof (pos_inside _ _ P1 Ip) as Q1.
  set (iD2 := add ip (half (mul (div ies ip) ies))).
  assert (ID2 : inside iD2 (1 - ec + es / (1 - ec) * es / 2)).
  { apply add_inside; auto. apply half_inside, mul_inside; auto. apply div_inside; auto. }
  clearbody iD2. destruct (pos iD2) eqn:P2; [|intro X; elim X; reflexivity]. cbn [negb].
  set (D2 := 1 - ec + es / (1 - ec) * es / 2) in *.
  set (id2 := div ies iD2). assert (Id2 : inside id2 (es / D2)) by (apply div_inside; auto). clearbody id2.
  match goal with |- context [negb (pos ?x)] => set (iD3 := x) end.
  replace (1 - (1 - ec)) with ec by ring.
  assert (ID3 : inside iD3 (1 - ec + es / D2 * es / 2 + es / D2 * (es / D2) * ec / 6)).
  { apply add_inside; [apply add_inside; auto; apply half_inside, mul_inside; auto|].
    apply (cdiv_inside (mul (sq id2) iec) 6 _ eq_refl). apply mul_inside; auto using sq_inside. }
  clearbody iD3. destruct (pos iD3) eqn:P3; [|intro X; elim X; reflexivity]. cbn [negb]. intros _.
  replace (s - (m + es / (1 - ec + es / D2 * es / 2 + es / D2 * (es / D2) * ec / 6)))
    with (e * sin s - es / (1 - ec + es / D2 * es / 2 + es / D2 * (es / D2) * ec / 6)) by (unfold m; ring).
  apply sub_inside; auto. apply div_inside; auto.
Qed.

Lemma check0_sound ie is e s : check0 ie is = true -> inside ie e -> inside is s -> 0 <= sin s ->
  lands e s 6 (e * sin s).
Proof.
  intros H He Hs P. unfold check0 in H.
  assert (HS : inside (mul ie (sin0 is)) (e * sin s)) by (apply mul_inside; auto using sin0_inside).
  assert (HC : inside (mul ie (cosi is)) (e * cos s)) by (apply mul_inside; auto using cosi_inside).
  destruct (captured ie _ _ is _) eqn:C in H.
  { apply lands_now. eapply captured_sound; eauto. }
  apply lands_step. refine (go_sound _ _ _ _ e s He HS HC Hs _ _ _ _ _ H _).
  apply first_inside; auto using mean_inside. intro T. rewrite T in H. discriminate.
Qed.

Lemma box_sound (P : R -> R -> Prop) ck :
  (forall ie is e s, ck ie is = true -> inside ie e -> inside is s -> 0 <= sin s -> P e s) ->
  forall k ie is e s, box ck k ie is = true -> inside ie e -> inside is s -> 0 <= sin s -> P e s.
Proof.
  intro H. induction k as [|k IH]; intros ie is e s; cbn [box]; destruct (ck ie is) eqn:C; try discriminate; eauto.
  destruct ie as [|e1 e2]; [discriminate|]. destruct is as [|s1 s2]; [discriminate|].
  intros B He Hs Z.
  destruct (s2 - s1 <? 4 * (e2 - e1))%sint63; apply andb_true_iff in B; destruct B as [B1 B2].
  - set (m := ((e1 + e2) >> 1)%sint63) in *. pose proof He as (_ & _ & E).
    destruct (Rle_dec e (v m)); [apply (IH _ _ _ _ B1)|apply (IH _ _ _ _ B2)]; auto; apply mk_inside; lra.
  - set (m := ((s1 + s2) >> 1)%sint63) in *. pose proof Hs as (_ & _ & E).
    destruct (Rle_dec s (v m)); [apply (IH _ _ _ _ B1)|apply (IH _ _ _ _ B2)]; auto; apply mk_inside; lra.
Qed.

Lemma strips_cons ck a b l : strips ck (a :: b :: l) = box ck 40 (mk a b) (Iv 0 52848231) && strips ck (b :: l).
Proof. reflexivity. Qed.

Lemma strips_sound (P : R -> R -> Prop) ck :
  (forall ie is e s, ck ie is = true -> inside ie e -> inside is s -> 0 <= sin s -> P e s) ->
  forall l a e s, strips ck (a :: l) = true -> v a <= e <= v (List.last l a) -> 0 <= s <= 315 / 100 ->
  0 <= sin s -> (l = [] -> P e s) -> P e s.
Proof.
  intros H. induction l as [|b l IH]; intros a e s B E S Z N; auto.
  rewrite strips_cons in B. apply andb_true_iff in B. destruct B as [B1 B2].
  destruct (Rle_dec e (v b)) as [L|L].
  - refine (box_sound P ck H _ _ _ _ _ B1 _ _ Z); [apply mk_inside; lra|].
    unfold inside, tame, v. change (to_Z 0) with 0%Z. change (to_Z 52848231) with 52848231%Z.
    repeat split; try lia; lra.
  - apply (IH b); auto.
    + destruct l as [|c l]; [cbn [List.last] in *; lra|]. change (List.last (b :: c :: l) a) with (List.last (c :: l) a) in E.
      rewrite (last_indep (c :: l) b a); [lra|discriminate].
    + intros ->. cbn [List.last] in E. lra.
Qed.
