(** Both Kepler solvers return for every mean anomaly and every eccentricity up
    to 0.99, the largest rv_drive passes on. *)
From Coq Require Import Reals List Bool ZArith Lra Lia Psatz.
From Coquelicot Require Rcomplements.
From Verif Require Import Py PyFacts Kepler KeplerSpec TrigFacts KeplerProofs DanbyProofs RvProofs RvTerm DanbyBoxProofs DanbyRun.
Import ListNotations.
Open Scope R_scope.

(** every angle is, up to whole turns and a sign, one of the half turn *)
Lemma fold_angle x : exists sg y (n : Z), (sg = 1 \/ sg = -1) /\ 0 <= y <= PI /\ x = sg * y + 2 * IZR n * PI.
Proof.
  pose proof PI_RGT_0 as PP.
  set (n := Int_part (x / (2 * PI))).
  assert (F : IZR n <= x / (2 * PI) < IZR n + 1).
  { pose proof (base_Int_part (x / (2 * PI))) as B. fold n in B. lra. }
  assert (G : x / (2 * PI) * (2 * PI) = x) by (field; lra).
  assert (B : 2 * IZR n * PI <= x < 2 * IZR n * PI + 2 * PI) by nra.
  destruct (Rle_dec (x - 2 * IZR n * PI) PI) as [L|L].
  - exists 1, (x - 2 * IZR n * PI), n. repeat split; auto; lra.
  - exists (-1), (2 * PI - (x - 2 * IZR n * PI)), (n + 1)%Z. rewrite plus_IZR. repeat split; auto; lra.
Qed.

Lemma sin_fold sg y n : sg = 1 \/ sg = -1 -> sin (sg * y + 2 * IZR n * PI) = sg * sin y.
Proof.
  intros [-> | ->]; rewrite sin_Zperiod; [rewrite !Rmult_1_l; auto|].
  replace (-1 * y) with (- y) by ring. rewrite sin_neg. ring.
Qed.
Lemma cos_fold sg y n : sg = 1 \/ sg = -1 -> cos (sg * y + 2 * IZR n * PI) = cos y.
Proof.
  intros [-> | ->]; rewrite cos_Zperiod; [rewrite !Rmult_1_l; auto|].
  replace (-1 * y) with (- y) by ring. apply cos_neg.
Qed.

(** the correction commutes with whole turns and with the sign *)
Lemma nx_fold e sg y n d : sg = 1 \/ sg = -1 -> nx e (sg * y + 2 * IZR n * PI) (sg * d) = sg * nx e y d.
Proof.
  intro G. unfold nx, danby.
  replace (sg * y + 2 * IZR n * PI - sg * d) with (sg * (y - d) + 2 * IZR n * PI) by ring.
  rewrite !sin_fold, !cos_fold by auto.
  set (c := cos (y - d)). set (sn := sin (y - d)).
  assert (FI : kepler_fi (sg * y + 2 * IZR n * PI - e * (sg * sin y)) e (sg * (y - d) + 2 * IZR n * PI)
             = sg * kepler_fi (y - e * sin y) e (y - d)).
  { unfold kepler_fi. rewrite sin_fold by auto. ring. }
  rewrite FI. set (f := kepler_fi (y - e * sin y) e (y - d)).
  assert (S2 : sg * sg = 1) by (destruct G; subst; ring).
  set (p := 1 - e * c).
  replace (- (sg * f) / p) with (sg * (- f / p)) by (unfold Rdiv; ring).
  set (d1 := - f / p).
  replace (p + sg * d1 * (e * (sg * sn)) / 2) with (p + d1 * (e * sn) / 2)
    by (replace (sg * d1 * (e * (sg * sn))) with (sg * sg * (d1 * (e * sn))) by ring; rewrite S2; field).
  set (D2 := p + d1 * (e * sn) / 2).
  replace (- (sg * f) / D2) with (sg * (- f / D2)) by (unfold Rdiv; ring).
  set (d2 := - f / D2).
  replace (p + sg * d2 * (e * (sg * sn)) / 2 + sg * d2 * (sg * d2) * (1 - p) / 6)
    with (p + d2 * (e * sn) / 2 + d2 * d2 * (1 - p) / 6).
  2:{ replace (sg * d2 * (e * (sg * sn))) with (sg * sg * (d2 * (e * sn))) by ring.
      replace (sg * d2 * (sg * d2)) with (sg * sg * (d2 * d2)) by ring. rewrite S2. field. }
  unfold Rdiv. ring.
Qed.

Lemma iter_fold e sg y n d k : sg = 1 \/ sg = -1 ->
  Nat.iter k (nx e (sg * y + 2 * IZR n * PI)) (sg * d) = sg * Nat.iter k (nx e y) d.
Proof.
  intro G. induction k as [|k IH]; [reflexivity|].
  change (nx e (sg * y + 2 * IZR n * PI) (Nat.iter k (nx e (sg * y + 2 * IZR n * PI)) (sg * d))
          = sg * nx e y (Nat.iter k (nx e y) d)). rewrite IH. apply nx_fold, G.
Qed.

Lemma lands_fold e sg y n m d : sg = 1 \/ sg = -1 -> lands e y m d -> lands e (sg * y + 2 * IZR n * PI) m (sg * d).
Proof.
  intros G (k & K & H). exists k. split; auto. intro j. rewrite iter_fold by auto.
  rewrite Rabs_mult. replace (Rabs sg) with 1; [rewrite Rmult_1_l; apply H|].
  destruct G; subst; [rewrite Rabs_pos_eq; lra|rewrite Rabs_left; lra].
Qed.

(** the guess lands, for both back ends *)
Lemma mean_range e y : 0 <= e <= 1 -> 0 <= y <= PI -> 0 <= y - e * sin y <= PI.
Proof.
  intros E Y. pose proof (mean_mono e 0 y E (proj1 Y)) as A. pose proof (mean_mono e y PI E (proj2 Y)) as B.
  rewrite sin_0 in A. rewrite sin_PI in B. lra.
Qed.

Lemma np_sign_mult sg x : sg = 1 \/ sg = -1 -> np_sign (sg * x) = sg * np_sign x.
Proof.
  intros [-> | ->]; unfold np_sign;
    repeat match goal with |- context [Rlt_dec ?a ?b] => destruct (Rlt_dec a b) end; lra.
Qed.

Lemma guess_lands e M s g : 0 <= e <= 99 / 100 -> s - e * sin s = M ->
  g = M \/ (exists sg y n, (sg = 1 \/ sg = -1) /\ 0 <= y <= PI /\ s = sg * y + 2 * IZR n * PI /\
                           g = M + sg * (85 / 100) * e) ->
  lands e s 6 (s - g).
Proof.
  intros E HM [-> | (sg & y & n & G & Y & -> & ->)].
  - destruct (fold_angle s) as (sg & y & n & G & Y & ->). rewrite <- HM, sin_fold by auto.
    replace (sg * y + 2 * IZR n * PI - (sg * y + 2 * IZR n * PI - e * (sg * sin y)))
      with (sg * (e * sin y)) by ring.
    apply lands_fold; auto. apply lands_start; auto.
  - rewrite <- HM, sin_fold by auto.
    replace (sg * y + 2 * IZR n * PI - (sg * y + 2 * IZR n * PI - e * (sg * sin y) + sg * (85 / 100) * e))
      with (sg * (e * sin y - 85 / 100 * e)) by ring.
    apply lands_fold; auto. apply lands_start; auto.
Qed.

(** a signed guess is of the second form *)
Lemma signed_guess e M s x : 0 <= e <= 99 / 100 -> s - e * sin s = M ->
  (x = 0 \/ (sin M <> 0 /\ x = np_sign (sin M))) ->
  M + x * guess_k * e = M \/
  exists sg y n, (sg = 1 \/ sg = -1) /\ 0 <= y <= PI /\ s = sg * y + 2 * IZR n * PI /\
                 M + x * guess_k * e = M + sg * (85 / 100) * e.
Proof.
  intros E HM [-> | [N ->]]; [left; ring|]. right.
  destruct (fold_angle s) as (sg & y & n & G & Y & S). exists sg, y, n. repeat split; auto; try lra.
  assert (M2 : M = sg * (y - e * sin y) + 2 * IZR n * PI) by (rewrite <- HM, S, sin_fold by auto; ring).
  assert (R : 0 <= y - e * sin y <= PI) by (apply mean_range; lra).
  rewrite M2, sin_fold in N |- * by auto. rewrite np_sign_mult by auto.
  assert (P : 0 <= sin (y - e * sin y)) by (apply sin_ge_0; lra).
  assert (Q : np_sign (sin (y - e * sin y)) = 1).
  { unfold np_sign. destruct (Rlt_dec (sin (y - e * sin y)) 0); [lra|].
    destruct (Rlt_dec 0 (sin (y - e * sin y))) as [L|L]; auto. exfalso. apply N.
    replace (sin (y - e * sin y)) with 0 by lra. ring. }
  rewrite Q. unfold guess_k. ring.
Qed.

Lemma py_guess_lands e M s : 0 <= e <= 99 / 100 -> s - e * sin s = M -> lands e s 6 (s - py_guess M e).
Proof.
  intros E HM. apply (guess_lands e M); auto. apply signed_guess; auto.
  destruct (Req_dec (sin M) 0) as [Z|Z]; [left|right; auto].
  rewrite Z. unfold np_sign. destruct (Rlt_dec 0 0); lra.
Qed.

Lemma c_guess_lands e M s : 0 <= e <= 99 / 100 -> s - e * sin s = M -> lands e s 6 (s - c_guess M e).
Proof.
  intros E HM. apply (guess_lands e M); auto. apply signed_guess; auto.
  pose proof (SIN_bound M) as B.
  destruct (Req_dec (sin M) 1) as [H1|H1]; [|destruct (Req_dec (sin M) (-1)) as [H2|H2]].
  - right. rewrite H1, c_sign_one. unfold np_sign. split; [lra|].
    destruct (Rlt_dec 1 0); [lra|]. destruct (Rlt_dec 0 1); lra.
  - right. rewrite H2, c_sign_mone. unfold np_sign. split; [lra|]. destruct (Rlt_dec (-1) 0); lra.
  - left. apply c_sign_zero. lra.
Qed.

(** the residual at distance [d] *)
Lemma residual_le e s d : 0 <= e <= 1 -> Rabs (kepler_fi (s - e * sin s) e (s - d)) <= 2 * Rabs d.
Proof.
  intro E. unfold kepler_fi.
  replace (s - d - e * sin (s - d) - (s - e * sin s)) with (- d - e * (sin (s - d) - sin s)) by ring.
  pose proof (sin_lipschitz s (s - d)) as L. replace (s - d - s) with (- d) in L by ring. rewrite Rabs_Ropp in L.
  eapply Rle_trans; [apply Rabs_triang|]. rewrite !Rabs_Ropp, Rabs_mult, (Rabs_pos_eq e) by lra.
  pose proof (Rabs_pos (sin (s - d) - sin s)). nra.
Qed.

Lemma quarter : 2 * (1 / 4) ^ 22 <= conv_tol.
Proof. unfold conv_tol. lra. Qed.

(** the loops stop once an iterate has converged *)
Lemma solve1_lands e M s : s - e * sin s = M -> forall n E,
  Rabs (kepler_fi M e (s - Nat.iter n (nx e s) (s - E))) <= conv_tol -> exists E', solve1_loop (S n) M e E = Some E'.
Proof.
  intro HM. induction n as [|n IH]; intros E H.
  - cbn [Nat.iter nat_rect] in H. replace (s - (s - E)) with E in H by ring.
    exists E. cbn. rewrite (proj2 (unconverged_false _)); auto.
  - remember (S n) as k. cbn. destruct (unconverged (kepler_fi M e E)) eqn:U; [|eauto].
    subst k. apply IH. rewrite iter_in in H.
    replace (s - danby e E (kepler_fi M e E)) with (nx e s (s - E)); auto.
    unfold nx. replace (s - (s - E)) with E by ring. rewrite HM. reflexivity.
Qed.

Lemma c_loop_lands e M s : s - e * sin s = M -> forall n E,
  Rabs (kepler_fi M e (s - Nat.iter n (nx e s) (s - E))) <= conv_tol -> exists E', c_kepler_loop (S (S n)) M e E = Ok E'.
Proof.
  intro HM. induction n as [|n IH]; intros E H.
  - cbn [Nat.iter nat_rect] in H. replace (s - (s - E)) with E in H by ring.
    exists E. cbn. rewrite (proj2 (unconverged_false _)); auto.
  - remember (S (S n)) as k. cbn. destruct (unconverged (kepler_fi M e E)) eqn:U; [|eauto].
    subst k. apply IH. rewrite iter_in in H.
    replace (s - danby e E (kepler_fi M e E)) with (nx e s (s - E)); auto.
    unfold nx. replace (s - (s - E)) with E by ring. rewrite HM. reflexivity.
Qed.

Lemma landed e M s E : 0 <= e <= 1 -> s - e * sin s = M -> lands e s 6 (s - E) ->
  Rabs (kepler_fi M e (s - Nat.iter 28 (nx e s) (s - E))) <= conv_tol.
Proof.
  intros He HM (m & Hm & H). rewrite <- HM.
  eapply Rle_trans; [apply residual_le; auto|].
  pose proof (H (28 - m)%nat) as K. replace (m + (28 - m))%nat with 28%nat in K by lia.
  pose proof quarter as Q.
  assert (P : (1 / 4) ^ (28 - m) <= (1 / 4) ^ 22).
  { replace (28 - m)%nat with ((6 - m) + 22)%nat by lia. rewrite pow_add.
    assert (0 <= (1 / 4) ^ 22) by (apply pow_le; lra).
    assert ((1 / 4) ^ (6 - m) <= 1).
    { pose proof (pow_incr (1 / 4) 1 (6 - m) ltac:(lra)) as A. rewrite pow1 in A. exact A. }
    assert (0 <= (1 / 4) ^ (6 - m)) by (apply pow_le; lra). nra. }
  lra.
Qed.

(** * Termination *)
Theorem python_always_returns Ms es : length es = length Ms -> Ms <> [] ->
  (forall e, In e es -> 0 <= e <= 99 / 100) -> exists v, kepler 29 Ms es = Ok v.
Proof.
  intros L N H. apply kepler_total; auto. intros i M e HM He.
  assert (E : 0 <= e <= 99 / 100) by (apply H; eapply nth_error_In; eauto).
  destruct (kepler_exists e M) as [s S]; [lra|].
  apply (solve1_lands e M s S). apply landed; [lra|auto|]. apply py_guess_lands; auto.
Qed.

Theorem c_always_returns M e : 0 <= e <= 99 / 100 -> exists E, c_kepler M e = Ok E.
Proof.
  intro E. destruct (kepler_exists e M) as [s S]; [lra|].
  apply (c_loop_lands e M s S). apply landed; [lra|auto|]. apply c_guess_lands; auto.
Qed.

(** whatever the elements, rv_drive returns *)
Theorem rv_drive_always_returns use_c ts o : ts <> [] -> exists v, rv_drive use_c 29 ts o = Ok v.
Proof.
  intros HN. unfold rv_drive. destruct (reqb (o_e o) 0); [eauto|].
  set (e0 := if rltb (o_e o) 0 then 0 else o_e o).
  set (e := if rltb (99 / 100) e0 then 99 / 100 else e0).
  assert (He' : 0 <= e <= 99 / 100).
  { unfold e, e0, rltb. destruct (Rlt_dec (o_e o) 0); destruct (Rlt_dec _ _); lra. }
  destruct use_c.
  - unfold c_rv_drive_array.
    destruct (map_res_total (fun x => c_rv_drive x (if rltb (o_per o) 0 then / 10000 else o_per o)
       (o_tp o) e (cos (o_om o)) (sin (o_om o)) (o_k o)) ts) as [ys ->]; [|cbn; eauto].
    intros x _. unfold c_rv_drive.
    destruct (c_always_returns (mean_anomaly (if rltb (o_per o) 0 then / 10000 else o_per o) (o_tp o) x) e He') as [E ->].
    cbn. eauto.
  - unfold true_anomaly.
    destruct (python_always_returns (map (mean_anomaly (if rltb (o_per o) 0 then / 10000 else o_per o) (o_tp o)) ts)
       (map (fun _ => 0 + e) ts)) as [v ->]; [| | |cbn; eauto].
    + now rewrite !map_length.
    + destruct ts; [congruence|discriminate].
    + intros x Hx. apply in_map_iff in Hx as [? [<- _]]. lra.
Qed.
