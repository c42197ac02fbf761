(** The Gaussian integral, with Coquelicot's Riemann integrals:
    the integral of exp(-x^2) over the real line is sqrt pi. *)
From Coq Require Import Reals Lra Psatz.
From Coquelicot Require Import Coquelicot.
Open Scope R_scope.

Ltac asR := match goal with |- ?a = ?b => change (@eq R a b) end.

Definition ge (t : R) : R := exp (- t ^ 2).
Definition G0 (x : R) : R := RInt ge 0 x.
Definition h (x t : R) : R := exp (- (x ^ 2 * (1 + t ^ 2))) / (1 + t ^ 2).
Definition H (x : R) : R := RInt (h x) 0 1.

Lemma ge_cont x : continuous ge x.
Proof. apply (ex_derive_continuous (V := R_NormedModule)). unfold ge. auto_derive; auto. Qed.

Lemma ge_ex a b : ex_RInt ge a b.
Proof. apply (ex_RInt_continuous (V := R_CompleteNormedModule)). intros; apply ge_cont. Qed.

Lemma G0_derive x : is_derive G0 x (ge x).
Proof.
  apply (is_derive_RInt ge G0 0 x).
  - exists (mkposreal 1 Rlt_0_1). intros y _. apply (RInt_correct (V := R_CompleteNormedModule)). apply ge_ex.
  - apply ge_cont.
Qed.

Lemma sq1 t : 0 < 1 + t ^ 2.
Proof. nra. Qed.

Lemma h_ex x a b : ex_RInt (h x) a b.
Proof.
  apply (ex_RInt_continuous (V := R_CompleteNormedModule)). intros t _.
  apply (ex_derive_continuous (V := R_NormedModule)). unfold h. auto_derive. pose proof (sq1 t). lra.
Qed.

Lemma h_derive x t : is_derive (fun u => h u t) x (- (2 * x * exp (- (x ^ 2 * (1 + t ^ 2))))).
Proof. unfold h. pose proof (sq1 t). auto_derive; [lra|].
  match goal with |- context [exp ?a] => replace (exp a) with (exp (- (x ^ 2 * (1 + t ^ 2)))) by (f_equal; ring) end.
  field. lra. Qed.

Lemma h_Derive x t : Derive (fun u => h u t) x = - (2 * x * exp (- (x ^ 2 * (1 + t ^ 2)))).
Proof. apply is_derive_unique, h_derive. Qed.

Lemma H_derive x : is_derive H x (- (2 * ge x * G0 x)).
Proof.
  unfold H.
  assert (RInt (fun t => Derive (fun u => h u t) x) 0 1 = - (2 * ge x * G0 x)) as <-.
  { rewrite (RInt_ext _ (fun t => scal (- (2 * ge x)) (scal x (ge (x * t + 0))))).
    2:{ intros t _. rewrite h_Derive. transitivity (- (2 * ge x) * (x * ge (x * t + 0))); [|reflexivity]. asR. unfold ge.
        replace (- (x ^ 2 * (1 + t ^ 2))) with (- x ^ 2 + - (x * t + 0) ^ 2) by ring. rewrite exp_plus. ring. }
    rewrite (RInt_scal (V := R_CompleteNormedModule)).
    2:{ apply (ex_RInt_comp_lin (V := R_CompleteNormedModule)). apply ge_ex. }
    rewrite (RInt_comp_lin (V := R_CompleteNormedModule)) by apply ge_ex.
    rewrite Rmult_0_r, Rmult_1_r, !Rplus_0_r. change (- (2 * ge x) * G0 x = - (2 * ge x * G0 x)). ring. }
  apply (is_derive_RInt_param h 0 1 x).
  - exists (mkposreal 1 Rlt_0_1). intros y _ t _. eexists. apply h_derive.
  - intros t _. apply continuity_2d_pt_ext with (fun u v => -2 * u * exp (- (u * u * (1 + v * v)))).
    { intros u v. rewrite h_Derive.
      replace (u * u * (1 + v * v)) with (u ^ 2 * (1 + v ^ 2)) by ring. ring. }
    apply continuity_2d_pt_mult.
    + apply continuity_2d_pt_mult; [apply continuity_2d_pt_const|apply continuity_2d_pt_id1].
    + apply (continuity_1d_2d_pt_comp exp (fun u v => - (u * u * (1 + v * v)))).
      * apply derivable_continuous_pt, derivable_pt_exp.
      * apply continuity_2d_pt_opp. apply continuity_2d_pt_mult.
        -- apply continuity_2d_pt_mult; apply continuity_2d_pt_id1.
        -- apply continuity_2d_pt_plus; [apply continuity_2d_pt_const|]. apply continuity_2d_pt_mult; apply continuity_2d_pt_id2.
  - exists (mkposreal 1 Rlt_0_1). intros y _. apply h_ex.
Qed.

Lemma sum_const x : G0 x ^ 2 + H x = G0 0 ^ 2 + H 0.
Proof.
  set (F := fun x => G0 x ^ 2 + H x).
  assert (forall x, is_derive F x 0) as D.
  { intro y. unfold F. evar_last.
    - apply (is_derive_plus (V := R_NormedModule)); [|apply H_derive].
      apply (is_derive_pow G0 2 y (ge y)). apply G0_derive.
    - unfold plus; cbn. asR. ring. }
  destruct (MVT_gen F 0 x (fun _ => 0)) as (c & _ & E).
  - intros. apply D.
  - intros. apply continuity_pt_filterlim. apply (ex_derive_continuous (V := R_NormedModule)). eexists; apply D.
  - change (F x = F 0). lra.
Qed.

Lemma G0_0 : G0 0 = 0.
Proof. unfold G0. now rewrite (RInt_point (V := R_CompleteNormedModule)). Qed.

Lemma H_0 : H 0 = PI / 4.
Proof.
  unfold H. apply is_RInt_unique.
  apply (is_RInt_ext (V := R_NormedModule) (fun t => / (1 + t ^ 2))).
  { intros t _. unfold h. replace (- (0 ^ 2 * (1 + t ^ 2))) with 0 by ring. rewrite exp_0. unfold Rdiv. rewrite Rmult_1_l. reflexivity. }
  replace (PI / 4) with (minus (atan 1) (atan 0)).
  2:{ rewrite atan_1, atan_0. unfold minus, plus, opp; cbn. asR. ring. }
  apply (is_RInt_derive (V := R_CompleteNormedModule) atan).
  - intros t _. rewrite <- Rsqr_pow2. apply is_derive_atan.
  - intros t _. apply (ex_derive_continuous (V := R_NormedModule)). auto_derive. pose proof (sq1 t). lra.
Qed.

Lemma G0_sq x : G0 x ^ 2 = PI / 4 - H x.
Proof. pose proof (sum_const x) as E. rewrite G0_0, H_0 in E. lra. Qed.

Lemma H_bound x : 0 <= H x <= ge x.
Proof.
  unfold H. split.
  - apply RInt_ge_0; [lra|apply h_ex|]. intros t _. unfold h. apply Rlt_le, Rdiv_lt_0_compat; [apply exp_pos|apply sq1].
  - replace (ge x) with (RInt (fun _ => ge x) 0 1).
    2:{ rewrite (RInt_const (V := R_CompleteNormedModule)). unfold scal; cbn; unfold mult; cbn. asR. ring. }
    apply RInt_le; [lra|apply h_ex|apply (ex_RInt_const (V := R_CompleteNormedModule))|].
    intros t Ht. unfold h, ge. pose proof (exp_pos (- x ^ 2)).
    assert (exp (- (x ^ 2 * (1 + t ^ 2))) <= exp (- x ^ 2)) as E.
    { destruct (Req_dec (- (x ^ 2 * (1 + t ^ 2))) (- x ^ 2)) as [->|N]; [lra|].
      apply Rlt_le, exp_increasing. assert (0 <= x ^ 2) by nra. assert (0 <= t ^ 2) by nra.
      assert (0 <= x ^ 2 * t ^ 2) by nra. lra. }
    pose proof (exp_pos (- (x ^ 2 * (1 + t ^ 2)))). pose proof (sq1 t).
    apply Rmult_le_reg_r with (1 + t ^ 2); auto. unfold Rdiv. rewrite Rmult_assoc, Rinv_l, Rmult_1_r by lra.
    assert (0 <= t ^ 2) by nra. nra.
Qed.

Lemma G0_nonneg x : 0 <= x -> 0 <= G0 x.
Proof. intro Hx. apply RInt_ge_0; auto; [apply ge_ex|]. intros t _. apply Rlt_le, exp_pos. Qed.

Lemma G0_sqrt x : 0 <= x -> G0 x = sqrt (PI / 4 - H x).
Proof. intro Hx. rewrite <- G0_sq. rewrite sqrt_pow2; auto. now apply G0_nonneg. Qed.

Lemma ge_lim : is_lim ge p_infty 0.
Proof.
  apply (is_lim_le_le_loc (fun _ => 0) (fun x => / x) ge).
  - exists 1. intros x Hx. unfold ge. split; [apply Rlt_le, exp_pos|].
    rewrite exp_Ropp. apply Rinv_le_contravar; [lra|]. pose proof (exp_ineq1_le (x ^ 2)). nra.
  - apply is_lim_const.
  - evar_last; [apply (is_lim_inv (fun x => x) p_infty p_infty); [apply is_lim_id|discriminate]|reflexivity].
Qed.

Lemma H_lim : is_lim H p_infty 0.
Proof.
  apply (is_lim_le_le_loc (fun _ => 0) ge H).
  - exists 0. intros x _. apply H_bound.
  - apply is_lim_const.
  - apply ge_lim.
Qed.

Lemma G0_lim : is_lim G0 p_infty (sqrt PI / 2).
Proof.
  apply (is_lim_ext_loc (fun x => sqrt (PI / 4 - H x))).
  { exists 0. intros x Hx. symmetry. apply G0_sqrt. lra. }
  assert (sqrt PI / 2 = sqrt (PI / 4 - 0)) as ->.
  { rewrite Rminus_0_r. pose proof PI_RGT_0. unfold Rdiv. rewrite sqrt_mult by lra. f_equal.
    replace (/ 4) with ((/ 2) ^ 2) by field. rewrite sqrt_pow2; lra. }
  apply (is_lim_comp_continuous (fun x => PI / 4 - H x) sqrt p_infty (PI / 4 - 0)).
  - apply is_lim_minus'; [apply is_lim_const|apply H_lim].
  - apply continuity_pt_filterlim. apply continuity_pt_sqrt. pose proof PI_RGT_0. lra.
Qed.

Lemma G0_odd x : G0 (- x) = - G0 x.
Proof.
  set (F := fun y => G0 (- y) + G0 y).
  assert (forall y, is_derive F y 0) as D.
  { intro y. unfold F. evar_last.
    - apply (is_derive_plus (V := R_NormedModule)); [|apply G0_derive].
      apply (is_derive_comp (V := R_NormedModule) G0 (fun y => - y) y (ge (- y)) (-1)); [apply G0_derive|].
      auto_derive; auto. 
    - unfold ge. replace ((- y) ^ 2) with (y ^ 2) by ring. change (-1 * exp (- y ^ 2) + exp (- y ^ 2) = 0). ring. }
  destruct (MVT_gen F 0 x (fun _ => 0)) as (c & _ & E).
  - intros. apply D.
  - intros. apply continuity_pt_filterlim. apply (ex_derive_continuous (V := R_NormedModule)). eexists; apply D.
  - unfold F in E. rewrite Ropp_0, G0_0 in E. lra.
Qed.

Lemma G0_lim_minus : is_lim G0 m_infty (- (sqrt PI / 2)).
Proof.
  apply (is_lim_ext (fun x => - G0 (- x))). { intro x. rewrite G0_odd. ring. }
  apply (is_lim_opp (fun x => G0 (- x)) m_infty (sqrt PI / 2)).
  apply (is_lim_comp G0 (fun x => - x) m_infty (sqrt PI / 2) p_infty).
  - apply G0_lim.
  - apply (is_lim_opp (fun x => x) m_infty m_infty). apply is_lim_id.
  - exists 0. intros y _. discriminate.
Qed.

(** ** Improper integrals from a primitive *)
Lemma is_RInt_gen_primitive (f F : R -> R) (A B : R) :
  (forall a b, is_RInt f a b (F b - F a)) -> is_lim F m_infty A -> is_lim F p_infty B ->
  is_RInt_gen f (Rbar_locally m_infty) (Rbar_locally p_infty) (B - A).
Proof.
  intros HI LA LB P [eps HP].
  assert (0 < eps / 2) as He2 by (destruct eps; cbn; lra).
  destruct (LA (fun y => Rabs (y - A) < eps / 2)) as [Ma HA].
  { exists (mkposreal _ He2). intros y Hy. exact Hy. }
  destruct (LB (fun y => Rabs (y - B) < eps / 2)) as [Mb HB].
  { exists (mkposreal _ He2). intros y Hy. exact Hy. }
  apply (Filter_prod _ _ _ (fun a => a < Ma) (fun b => Mb < b)).
  - exists Ma. auto.
  - exists Mb. auto.
  - intros a b Ha Hb. exists (F b - F a). split; [apply HI|]. apply HP.
    change (Rabs (F b - F a - (B - A)) < eps).
    replace (F b - F a - (B - A)) with ((F b - B) + - (F a - A)) by ring.
    eapply Rle_lt_trans; [apply Rabs_triang|]. rewrite Rabs_Ropp. specialize (HA a Ha). specialize (HB b Hb). lra.
Qed.

(** the integral of exp(-(x-m)^2/(2 var)) *)
Lemma gauss_integral m var : 0 < var ->
  is_RInt_gen (fun x => exp (- ((x - m) ^ 2 / (2 * var)))) (Rbar_locally m_infty) (Rbar_locally p_infty) (sqrt (2 * PI * var)).
Proof.
  intro Hv. set (s := sqrt (2 * var)). assert (0 < s) as Hs by (apply sqrt_lt_R0; lra).
  assert (s * s = 2 * var) as Hss by (apply sqrt_sqrt; lra).
  set (F := fun x => s * G0 ((x - m) / s)).
  replace (sqrt (2 * PI * var)) with (s * (sqrt PI / 2) - s * (- (sqrt PI / 2))).
  2:{ replace (2 * PI * var) with ((2 * var) * PI) by ring. rewrite sqrt_mult; [|lra|pose proof PI_RGT_0; lra]. fold s. field. }
  apply (is_RInt_gen_primitive _ F).
  - intros a b.
    apply (is_RInt_derive (V := R_CompleteNormedModule) F (fun x => exp (- ((x - m) ^ 2 / (2 * var))))).
    + intros x _. unfold F. evar_last.
      * apply (is_derive_scal (fun x => G0 ((x - m) / s)) x s).
        apply (is_derive_comp (V := R_NormedModule) G0 (fun x => (x - m) / s) x (ge ((x - m) / s)) (/ s)); [apply G0_derive|].
        auto_derive; [lra|]. field. lra.
      * unfold scal; cbn; unfold mult; cbn. unfold ge. rewrite <- Rmult_assoc, Rinv_r, Rmult_1_l by lra. f_equal.
        rewrite <- Hss. field. lra.
    + intros x _. apply (ex_derive_continuous (V := R_NormedModule)). auto_derive. lra.
  - apply (is_lim_scal_l (fun x => G0 ((x - m) / s)) s m_infty (- (sqrt PI / 2))).
    apply (is_lim_comp G0 (fun x => (x - m) / s) m_infty (- (sqrt PI / 2)) m_infty).
    + apply G0_lim_minus.
    + intros P [M HM]. exists (s * M + m). intros x Hx. apply HM. apply (Rmult_lt_reg_r s); auto.
      unfold Rdiv. rewrite Rmult_assoc, Rinv_l by lra. nra.
    + exists 0. intros y _. discriminate.
  - apply (is_lim_scal_l (fun x => G0 ((x - m) / s)) s p_infty (sqrt PI / 2)).
    apply (is_lim_comp G0 (fun x => (x - m) / s) p_infty (sqrt PI / 2) p_infty).
    + apply G0_lim.
    + intros P [M HM]. exists (s * M + m). intros x Hx. apply HM. apply (Rmult_lt_reg_r s); auto.
      unfold Rdiv. rewrite Rmult_assoc, Rinv_l by lra. nra.
    + exists 0. intros y _. discriminate.
Qed.
