(** C22, C23: priors are normalised and their transforms are quantile functions. *)
From Coq Require Import Reals String Arith Bool Lra Lia List.
From Coquelicot Require Import Coquelicot.
From Verif Require Import Py PyFacts PyFloat PyFloatFacts Params Basis Prior PriorSpec GaussInt.
Import ListNotations.
Open Scope R_scope.

Lemma holds_rowval idx v s x : row_holds idx v s x <-> rowval idx v s = Ok x.
Proof.
  unfold row_holds, rowval, dget_res, vget. split.
  - intros (i & r & -> & H & E). cbn. now rewrite H, E.
  - destruct (dget idx s) as [i|]; [|discriminate]. cbn. destruct (nth_error v i) as [r|] eqn:E; [|discriminate].
    destruct (r_val r) eqn:F; [|discriminate]. intros [= ->]. eauto 6.
Qed.

(** ** Densities supported on an interval *)
Definition clamp (lo hi x : R) : R := Rmax lo (Rmin x hi).

Lemma clamp_in lo hi x : lo <= x <= hi -> clamp lo hi x = x.
Proof. intros. unfold clamp. rewrite Rmin_left, Rmax_right; lra. Qed.
Lemma clamp_below lo hi x : x <= lo <= hi -> clamp lo hi x = lo.
Proof. intros. unfold clamp. rewrite Rmin_left, Rmax_left; lra. Qed.
Lemma clamp_above lo hi x : lo <= hi <= x -> clamp lo hi x = hi.
Proof. intros. unfold clamp. rewrite Rmin_right, Rmax_right; lra. Qed.

Section Clamp.
  Variables (f g G : R -> R) (lo hi : R).
  Hypothesis LH : lo < hi.
  Hypothesis Fin_ : forall x, lo < x < hi -> f x = g x.
  Hypothesis Fout : forall x, x < lo \/ hi < x -> f x = 0.
  Hypothesis GD : forall x, lo <= x <= hi -> is_derive G x (g x).
  Hypothesis GC : forall x, lo <= x <= hi -> continuous g x.

  Lemma zero_int a b : (forall x, Rmin a b < x < Rmax a b -> f x = 0) -> is_RInt f a b 0.
  Proof.
    intro Z. apply (is_RInt_ext (fun _ => 0)); [intros; symmetry; auto|].
    evar_last; [apply (is_RInt_const (V := R_NormedModule))|]. unfold scal; cbn; unfold mult; cbn. asR. ring.
  Qed.

  Lemma inner_int x : lo <= x <= hi -> is_RInt f lo x (G x - G lo).
  Proof.
    intro Hx. apply (is_RInt_ext g).
    { intros y Hy. rewrite Rmin_left, Rmax_right in Hy by lra. symmetry. apply Fin_. lra. }
    apply (is_RInt_derive (V := R_CompleteNormedModule) G g).
    - intros y Hy. rewrite Rmin_left, Rmax_right in Hy by lra. apply GD. lra.
    - intros y Hy. rewrite Rmin_left, Rmax_right in Hy by lra. apply GC. lra.
  Qed.

  Lemma clamp_int_lo x : is_RInt f lo x (G (clamp lo hi x) - G lo).
  Proof.
    destruct (Rle_dec x lo) as [H|H].
    - rewrite clamp_below by lra. replace (G lo - G lo) with 0 by ring. apply zero_int.
      intros y Hy. rewrite Rmin_right, Rmax_left in Hy by lra. apply Fout. lra.
    - destruct (Rle_dec x hi) as [H'|H'].
      + rewrite clamp_in by lra. apply inner_int. lra.
      + rewrite clamp_above by lra. replace (G hi - G lo) with (G hi - G lo + 0) by ring.
        apply (is_RInt_Chasles (V := R_NormedModule) f lo hi x); [apply inner_int; lra|].
        apply zero_int. intros y Hy. rewrite Rmin_left, Rmax_right in Hy by lra. apply Fout. lra.
  Qed.

  Lemma clamp_int a b : is_RInt f a b (G (clamp lo hi b) - G (clamp lo hi a)).
  Proof.
    replace (G (clamp lo hi b) - G (clamp lo hi a)) with
      (opp (G (clamp lo hi a) - G lo) + (G (clamp lo hi b) - G lo)) by (unfold opp; cbn; ring).
    apply (is_RInt_Chasles (V := R_NormedModule) f a lo b); [|apply clamp_int_lo].
    apply (is_RInt_swap (V := R_NormedModule)). apply clamp_int_lo.
  Qed.

  Lemma clamp_lim_minus : is_lim (fun x => G (clamp lo hi x)) m_infty (G lo).
  Proof.
    apply is_lim_ext_loc with (fun _ => G lo); [|apply is_lim_const].
    exists lo. intros y Hy. now rewrite clamp_below by lra.
  Qed.
  Lemma clamp_lim_plus : is_lim (fun x => G (clamp lo hi x)) p_infty (G hi).
  Proof.
    apply is_lim_ext_loc with (fun _ => G hi); [|apply is_lim_const].
    exists hi. intros y Hy. now rewrite clamp_above by lra.
  Qed.

  Lemma clamp_total : is_RInt_gen f (Rbar_locally m_infty) (Rbar_locally p_infty) (G hi - G lo).
  Proof.
    apply (is_RInt_gen_primitive f (fun x => G (clamp lo hi x))); [apply clamp_int|apply clamp_lim_minus|apply clamp_lim_plus].
  Qed.
End Clamp.

(** mass below a point from a primitive with a limit *)
Lemma is_RInt_gen_below (f F : R -> R) (A q : R) : (forall a b, is_RInt f a b (F b - F a)) -> is_lim F m_infty A ->
  is_RInt_gen f (Rbar_locally m_infty) (at_point q) (F q - A).
Proof.
  intros HI LA P [eps HP].
  destruct (LA (fun y => Rabs (y - A) < eps)) as [M HM].
  { exists eps. intros y Hy. exact Hy. }
  exists (fun x => x < M) (fun x => x = q).
  - exists M. auto.
  - reflexivity.
  - intros x y Hx ->. exists (F q - F x). split; [apply HI|]. apply HP.
    change (Rabs (F q - F x - (F q - A)) < eps). rewrite <- Rabs_Ropp.
    replace (- (F q - F x - (F q - A))) with (F x - A) by ring. apply HM. exact Hx.
Qed.

Lemma clamp_below_mass f g G lo hi q : lo < hi ->
  (forall x, lo < x < hi -> f x = g x) -> (forall x, x < lo \/ hi < x -> f x = 0) ->
  (forall x, lo <= x <= hi -> is_derive G x (g x)) -> (forall x, lo <= x <= hi -> continuous g x) ->
  lo <= q <= hi -> is_RInt_gen f (Rbar_locally m_infty) (at_point q) (G q - G lo).
Proof.
  intros L H1 H2 H3 H4 Hq.
  pose proof (is_RInt_gen_below f (fun x => G (clamp lo hi x)) (G lo) q) as Q.
  cbv beta in Q. rewrite (clamp_in lo hi q) in Q by lra. apply Q; [intros; eapply clamp_int; eauto|apply clamp_lim_minus; auto].
Qed.

(** ** HardBounds *)
Definition hard_d (a b x : R) : ext := if rleb x a || rleb b x then NInf else Fin (- ln (b - a)).

Lemma hard_call s a b : a < b -> log_density_of (PHard s (Fin a) (Fin b)) s (hard_d a b).
Proof.
  intros L pb idx v x H. apply holds_rowval in H. unfold prior_call, prior_eval. rewrite H. cbn [bind ext_leb isfinite andb].
  unfold hard_d. destruct (rleb x a || rleb b x); auto.
  unfold ext_sub. cbn [ext_opp ext_add]. rewrite ext_log_fin by lra. cbn. replace (b + - a) with (b - a) by ring. reflexivity.
Qed.

Lemma hard_in a b x : a < x < b -> hard_d a b x = Fin (- ln (b - a)).
Proof.
  intros. unfold hard_d. replace (rleb x a) with false by (symmetry; apply rleb_false; lra).
  replace (rleb b x) with false by (symmetry; apply rleb_false; lra). reflexivity.
Qed.
Lemma hard_out a b x : x <= a \/ b <= x -> hard_d a b x = NInf.
Proof.
  intros [H|H]; unfold hard_d; [rewrite (proj2 (rleb_true x a) H)|rewrite (proj2 (rleb_true b x) H), orb_true_r]; reflexivity.
Qed.

Lemma hard_proper a b : a < b -> proper_density (hard_d a b) (fun x => a < x < b).
Proof.
  intro L. split; [|split].
  - intros x H. rewrite hard_in by auto. eauto.
  - intros x H. apply hard_out. lra.
  - evar_last.
    + apply (clamp_total _ (fun _ => / (b - a)) (fun x => x / (b - a)) a b L).
      * intros x H. rewrite hard_in by auto. cbn. rewrite exp_Ropp, exp_ln by lra. reflexivity.
      * intros x H. rewrite hard_out by lra. reflexivity.
      * intros x _. auto_derive; [auto|]. lra.
      * intros. apply continuous_const.
    + asR. field. lra.
Qed.

Lemma hard_quantile ppf s a b : a < b ->
  quantile_map (transform ppf (PHard s (Fin a) (Fin b))) (hard_d a b) (fun x => a < x < b).
Proof.
  intros L u Hu. eexists; split; [reflexivity|]. split; [|split].
  - nra.
  - evar_last.
    + apply (clamp_below_mass _ (fun _ => / (b - a)) (fun x => x / (b - a)) a b _ L).
      * intros x H. rewrite hard_in by auto. cbn. rewrite exp_Ropp, exp_ln by lra. reflexivity.
      * intros x H. rewrite hard_out by lra. reflexivity.
      * intros x _. auto_derive; [auto|]. lra.
      * intros. apply continuous_const.
      * nra.
    + asR. field. lra.
  - intros u' Hu'. eexists; split; [reflexivity|]. nra.
Qed.

(** ** Jeffreys and ModifiedJeffreys: densities 1/((x-x0) log((b-x0)/(a-x0))) on [a,b] *)
Definition jeff_d (x0 a b x : R) : ext :=
  if rltb x a || rltb b x then NInf else Fin (ln (/ ln ((b - x0) / (a - x0))) - ln (x - x0)).

Lemma jeff_in x0 a b x : a <= x <= b -> jeff_d x0 a b x = Fin (ln (/ ln ((b - x0) / (a - x0))) - ln (x - x0)).
Proof.
  intros. unfold jeff_d. replace (rltb x a) with false by (symmetry; apply rltb_false; lra).
  replace (rltb b x) with false by (symmetry; apply rltb_false; lra). reflexivity.
Qed.
Lemma jeff_out x0 a b x : x < a \/ b < x -> jeff_d x0 a b x = NInf.
Proof.
  intros [H|H]; unfold jeff_d; [rewrite (proj2 (rltb_true x a) H)|rewrite (proj2 (rltb_true b x) H), orb_true_r]; reflexivity.
Qed.

Section Jeff.
  Variables (x0 a b : R).
  Hypotheses (Ha : x0 < a) (Hb : a < b).

  Lemma jeff_ratio : 1 < (b - x0) / (a - x0).
  Proof. apply (Rmult_lt_reg_r (a - x0)); [lra|]. unfold Rdiv. rewrite Rmult_assoc, Rinv_l by lra. lra. Qed.
  Lemma jeff_log_pos : 0 < ln ((b - x0) / (a - x0)).
  Proof. rewrite <- ln_1. apply ln_increasing; [lra|apply jeff_ratio]. Qed.

  Let L := ln ((b - x0) / (a - x0)).

  Lemma jeff_edens x : a <= x <= b -> edens (jeff_d x0 a b x) = / (L * (x - x0)).
  Proof.
    intro H. rewrite jeff_in by auto. cbn. pose proof jeff_log_pos as P.
    unfold Rminus at 1. rewrite exp_plus, exp_Ropp, !exp_ln by (try lra; apply Rinv_0_lt_compat; exact P).
    unfold L. field. split; lra.
  Qed.

  Lemma jeff_deriv x : a <= x <= b -> is_derive (fun x => ln (x - x0) / L) x (/ (L * (x - x0))).
  Proof. intro H. pose proof jeff_log_pos as P. fold L in P. auto_derive; [lra|]. field. split; lra. Qed.

  Lemma jeff_cont x : a <= x <= b -> continuous (fun x => / (L * (x - x0))) x.
  Proof.
    intro H. pose proof jeff_log_pos as P. fold L in P.
    apply (ex_derive_continuous (V := R_NormedModule)). auto_derive. apply Rmult_integral_contrapositive_currified; lra.
  Qed.

  Lemma L_split : L = ln (b - x0) - ln (a - x0).
  Proof. unfold L. rewrite ln_div by lra. reflexivity. Qed.

  Lemma jeff_proper : proper_density (jeff_d x0 a b) (fun x => a <= x <= b).
  Proof.
    pose proof jeff_log_pos as P. fold L in P. split; [|split].
    - intros x H. rewrite jeff_in by auto. eauto.
    - intros x H. apply jeff_out. lra.
    - evar_last.
      + apply (clamp_total _ (fun x => / (L * (x - x0))) (fun x => ln (x - x0) / L) a b Hb).
        * intros x H. apply jeff_edens. lra.
        * intros x H. rewrite jeff_out by lra. reflexivity.
        * apply jeff_deriv.
        * apply jeff_cont.
      + asR. rewrite L_split in *. field. lra.
  Qed.

  Lemma jeff_q u : 0 < u < 1 -> a < x0 + (a - x0) * exp (u * L) < b.
  Proof.
    intro Hu. pose proof jeff_log_pos as P. fold L in P.
    assert (1 < exp (u * L)) by (rewrite <- exp_0; apply exp_increasing; nra).
    assert (exp (u * L) < (b - x0) / (a - x0)) as Q.
    { replace ((b - x0) / (a - x0)) with (exp L) by (apply exp_ln; pose proof jeff_ratio; lra). apply exp_increasing; nra. }
    assert ((a - x0) * exp (u * L) < b - x0).
    { replace (b - x0) with ((a - x0) * ((b - x0) / (a - x0))) by (field; lra). apply Rmult_lt_compat_l; lra. }
    split; [nra|lra].
  Qed.

  Lemma jeff_quantile tr : (forall u, tr u = Ok (x0 + (a - x0) * exp (u * L))) ->
    quantile_map tr (jeff_d x0 a b) (fun x => a <= x <= b).
  Proof.
    intros T u Hu. pose proof jeff_log_pos as P. fold L in P. rewrite T. eexists; split; [reflexivity|].
    pose proof (jeff_q u Hu) as Q. split; [lra|split].
    - evar_last.
      + apply (clamp_below_mass _ (fun x => / (L * (x - x0))) (fun x => ln (x - x0) / L) a b _ Hb).
        * intros x H. apply jeff_edens. lra.
        * intros x H. rewrite jeff_out by lra. reflexivity.
        * apply jeff_deriv.
        * apply jeff_cont.
        * lra.
      + asR. replace (x0 + (a - x0) * exp (u * L) - x0) with ((a - x0) * exp (u * L)) by ring.
        rewrite ln_mult, ln_exp by (try lra; apply exp_pos). field. lra.
    - intros u' Hu'. rewrite T. eexists; split; [reflexivity|].
      assert (exp (u * L) < exp (u' * L)) by (apply exp_increasing; nra). nra.
  Qed.
End Jeff.

Lemma jeffreys_built s a b : 0 < a -> a < b ->
  jeffreys_init s a b = Ok (PJeffreys s a b (Fin (/ ln (b / a)))).
Proof.
  intros H H'. pose proof (jeff_log_pos 0 a b H H') as P. rewrite !Rminus_0_r in P.
  pose proof (jeff_ratio 0 a b H H') as Q. rewrite !Rminus_0_r in Q. unfold jeffreys_init.
  rewrite (proj2 (reqb_false a 0)) by lra. rewrite ext_log_fin by lra. rewrite ext_div_fin by lra.
  replace (1 / ln (b / a)) with (/ ln (b / a)) by (field; lra). reflexivity.
Qed.

Lemma mod_jeffreys_built s a b x0 : x0 < a -> a < b ->
  mod_jeffreys_init s a b x0 = Ok (PModJeffreys s a b x0 (Fin (/ ln ((b - x0) / (a - x0))))).
Proof.
  intros H H'. pose proof (jeff_log_pos x0 a b H H') as P. pose proof (jeff_ratio x0 a b H H') as Q. unfold mod_jeffreys_init.
  rewrite (proj2 (reqb_false (a - x0) 0)) by lra. rewrite ext_log_fin by lra. rewrite ext_div_fin by lra.
  rewrite (proj2 (rltb_true x0 a)) by lra.
  replace (1 / ln ((b - x0) / (a - x0))) with (/ ln ((b - x0) / (a - x0))) by (field; lra). reflexivity.
Qed.

Lemma jeffreys_call s a b : 0 < a -> a < b ->
  log_density_of (PJeffreys s a b (Fin (/ ln (b / a)))) s (jeff_d 0 a b).
Proof.
  intros H H' pb idx v x Hx. apply holds_rowval in Hx. unfold prior_call, prior_eval. rewrite Hx. cbn [bind].
  pose proof (jeff_log_pos 0 a b H H') as P. unfold jeff_d. rewrite !Rminus_0_r in *.
  destruct (rltb x a) eqn:E1; auto. destruct (rltb b x) eqn:E2; auto. cbn [orb].
  apply rltb_false in E1, E2. rewrite !ext_log_fin by (try lra; apply Rinv_0_lt_compat; lra). reflexivity.
Qed.

Lemma mod_jeffreys_call s a b x0 : x0 < a -> a < b ->
  log_density_of (PModJeffreys s a b x0 (Fin (/ ln ((b - x0) / (a - x0))))) s (jeff_d x0 a b).
Proof.
  intros H H' pb idx v x Hx. apply holds_rowval in Hx. unfold prior_call, prior_eval. rewrite Hx. cbn [bind].
  pose proof (jeff_log_pos x0 a b H H') as P. unfold jeff_d. rewrite orb_comm.
  destruct (rltb x a) eqn:E1; auto. destruct (rltb b x) eqn:E2; auto. cbn [orb].
  apply rltb_false in E1, E2. rewrite !ext_log_fin by (try lra; apply Rinv_0_lt_compat; lra). reflexivity.
Qed.

Lemma jeffreys_transform ppf s a b : 0 < a -> a < b ->
  quantile_map (transform ppf (PJeffreys s a b (Fin (/ ln (b / a))))) (jeff_d 0 a b) (fun x => a <= x <= b).
Proof.
  intros H H'. apply jeff_quantile; auto. intro u. cbn. rewrite !Rminus_0_r, Rplus_0_l. reflexivity.
Qed.

Lemma mod_jeffreys_transform ppf s a b x0 : x0 < a -> a < b ->
  quantile_map (transform ppf (PModJeffreys s a b x0 (Fin (/ ln ((b - x0) / (a - x0)))))) (jeff_d x0 a b) (fun x => a <= x <= b).
Proof.
  intros H H'. apply jeff_quantile; auto. intro u. cbn [transform].
  pose proof (jeff_log_pos x0 a b H H') as P. pose proof (Rinv_0_lt_compat _ P).
  rewrite (proj2 (reqb_false _ 0)) by lra. unfold Rdiv at 1. rewrite Rinv_inv. reflexivity.
Qed.

(** ** Gaussian *)
Lemma var_pos sigma : 0 < sigma -> 0 < sigma * sigma * 2 * PI.
Proof.
  intro H. pose proof PI_RGT_0. apply Rmult_lt_0_compat; [|lra]. apply Rmult_lt_0_compat; [|lra]. now apply Rmult_lt_0_compat.
Qed.

Definition gauss_d (mu sigma x : R) : ext :=
  Fin (- (1 / 2) * ((x - mu) / sigma * ((x - mu) / sigma)) - 1 / 2 * ln (sigma * sigma * 2 * PI)).

Lemma gauss_call s mu sigma : 0 < sigma -> log_density_of (PGaussian s mu sigma) s (gauss_d mu sigma).
Proof.
  intros H pb idx v x Hx. apply holds_rowval in Hx. unfold prior_call, prior_eval. rewrite Hx. cbn [bind].
  unfold normal_log. rewrite ext_div_fin by lra. cbn [ext_mul].
  assert (0 < sigma * sigma * 2 * PI) by (now apply var_pos).
  rewrite ext_log_fin by lra. cbn. f_equal.
Qed.

Lemma gauss_edens mu sigma x : 0 < sigma ->
  edens (gauss_d mu sigma x) = / sqrt (2 * PI * sigma ^ 2) * exp (- ((x - mu) ^ 2 / (2 * sigma ^ 2))).
Proof.
  intro H. assert (0 < sigma * sigma * 2 * PI) as P by (now apply var_pos). cbn [edens gauss_d].
  unfold Rminus at 1. rewrite exp_plus, exp_Ropp.
  replace (1 / 2 * ln (sigma * sigma * 2 * PI)) with (ln (sqrt (sigma * sigma * 2 * PI))) by (rewrite ln_sqrt by lra; lra).
  rewrite exp_ln by (apply sqrt_lt_R0; lra).
  replace (sigma * sigma * 2 * PI) with (2 * PI * sigma ^ 2) by ring. rewrite Rmult_comm. f_equal. f_equal. field. lra.
Qed.

Lemma gauss_proper mu sigma : 0 < sigma -> proper_density (gauss_d mu sigma) (fun _ => True).
Proof.
  intro H. assert (0 < sigma ^ 2) as P by nra. split; [|split].
  - intros x _. unfold gauss_d. eauto.
  - intros x N. now destruct N.
  - apply (is_RInt_gen_ext (V := R_NormedModule) (fun x => scal (/ sqrt (2 * PI * sigma ^ 2)) (exp (- ((x - mu) ^ 2 / (2 * sigma ^ 2)))))).
    { apply filter_forall. intros p x _. symmetry. apply gauss_edens. exact H. }
    evar_last.
    + apply (is_RInt_gen_scal (V := R_NormedModule)). apply gauss_integral. exact P.
    + unfold scal; cbn; unfold mult; cbn. asR. apply Rinv_l. apply Rgt_not_eq. apply sqrt_lt_R0. pose proof PI_RGT_0. apply Rmult_lt_0_compat; lra.
Qed.

(** primitive of the standard normal density *)
Definition Phi (x : R) : R := / sqrt PI * G0 (x / sqrt 2).

Lemma sqrt2_pos : 0 < sqrt 2. Proof. apply sqrt_lt_R0. lra. Qed.

Definition phi (x : R) : R := exp (- (x ^ 2 / 2)) / sqrt (2 * PI).

Lemma Phi_derive x : is_derive Phi x (phi x).
Proof.
  pose proof sqrt2_pos as S2. unfold Phi. evar_last.
  - apply (is_derive_scal (fun x => G0 (x / sqrt 2)) x (/ sqrt PI)).
    apply (is_derive_comp (V := R_NormedModule) G0 (fun x => x / sqrt 2) x (ge (x / sqrt 2)) (/ sqrt 2)); [apply G0_derive|].
    auto_derive; [lra|]. field. lra.
  - unfold scal; cbn -[pow]; unfold mult; cbn -[pow]. asR. unfold ge, phi.
    assert ((x / sqrt 2) ^ 2 = x ^ 2 / 2) as ->.
    { replace ((x / sqrt 2) ^ 2) with (x ^ 2 / (sqrt 2 * sqrt 2)) by (field; lra). rewrite sqrt_sqrt by lra. reflexivity. }
    rewrite sqrt_mult by (pose proof PI_RGT_0; lra). pose proof (sqrt_lt_R0 _ PI_RGT_0). field. split; lra.
Qed.

Lemma phi_cont x : continuous phi x.
Proof. apply (ex_derive_continuous (V := R_NormedModule)). unfold phi. auto_derive; auto. Qed.

Lemma Phi_int a b : is_RInt phi a b (Phi b - Phi a).
Proof.
  apply (is_RInt_derive (V := R_CompleteNormedModule) Phi phi); intros; [apply Phi_derive|apply phi_cont].
Qed.

Lemma Phi_lim_minus : is_lim Phi m_infty (- (1 / 2)).
Proof.
  pose proof sqrt2_pos as S2. pose proof (sqrt_lt_R0 _ PI_RGT_0) as SP.
  replace (Finite (- (1 / 2))) with (Rbar_mult (/ sqrt PI) (- (sqrt PI / 2))) by (cbn; f_equal; field; lra).
  unfold Phi. apply is_lim_scal_l. apply (is_lim_comp G0 (fun x => x / sqrt 2) m_infty (- (sqrt PI / 2)) m_infty).
  - apply G0_lim_minus.
  - intros P [M HM]. exists (M * sqrt 2). intros x Hx. apply HM.
    apply (Rmult_lt_reg_r (sqrt 2)); [lra|]. unfold Rdiv. rewrite Rmult_assoc, Rinv_l by lra. lra.
  - exists 0. intros; discriminate.
Qed.

Lemma Phi_lim_plus : is_lim Phi p_infty (1 / 2).
Proof.
  pose proof sqrt2_pos as S2. pose proof (sqrt_lt_R0 _ PI_RGT_0) as SP.
  replace (Finite (1 / 2)) with (Rbar_mult (/ sqrt PI) (sqrt PI / 2)) by (cbn; f_equal; field; lra).
  unfold Phi. apply is_lim_scal_l. apply (is_lim_comp G0 (fun x => x / sqrt 2) p_infty (sqrt PI / 2) p_infty).
  - apply G0_lim.
  - intros P [M HM]. exists (M * sqrt 2). intros x Hx. apply HM.
    apply (Rmult_lt_reg_r (sqrt 2)); [lra|]. unfold Rdiv. rewrite Rmult_assoc, Rinv_l by lra. lra.
  - exists 0. intros; discriminate.
Qed.

Lemma Phi_mass q : is_RInt_gen phi (Rbar_locally m_infty) (at_point q) (Phi q + 1 / 2).
Proof.
  replace (Phi q + 1 / 2) with (Phi q - - (1 / 2)) by ring.
  apply is_RInt_gen_below; [apply Phi_int|apply Phi_lim_minus].
Qed.

Lemma ppf_Phi ppf u : is_ppf ppf -> 0 < u < 1 -> Phi (ppf u) + 1 / 2 = u.
Proof.
  intros H Hu. specialize (H u Hu).
  pose proof (is_RInt_gen_unique (V := R_CompleteNormedModule) _ _ H) as Q1.
  pose proof (is_RInt_gen_unique (V := R_CompleteNormedModule) _ _ (Phi_mass (ppf u))) as Q2. unfold phi in Q2.
  rewrite Q1 in Q2. symmetry. exact Q2.
Qed.

Lemma phi_pos x : 0 < phi x.
Proof.
  unfold phi. apply Rdiv_lt_0_compat; [apply exp_pos|]. apply sqrt_lt_R0. pose proof PI_RGT_0. lra.
Qed.

Lemma Phi_incr x y : x < y -> Phi x < Phi y.
Proof.
  intro H. apply (incr_function Phi m_infty p_infty phi); cbn; auto; intros; [apply Phi_derive|apply phi_pos].
Qed.

Lemma ppf_incr ppf u u' : is_ppf ppf -> 0 < u < u' -> u' < 1 -> ppf u < ppf u'.
Proof.
  intros H Hu Hu'. pose proof (ppf_Phi ppf u H ltac:(lra)). pose proof (ppf_Phi ppf u' H ltac:(lra)).
  destruct (Rlt_dec (ppf u) (ppf u')) as [|N]; auto.
  destruct (Req_dec (ppf u) (ppf u')) as [E|E]; [rewrite E in *; lra|].
  pose proof (Phi_incr (ppf u') (ppf u) ltac:(lra)). lra.
Qed.

Lemma gauss_mass mu sigma q : 0 < sigma -> mass_below (gauss_d mu sigma) q (Phi ((q - mu) / sigma) + 1 / 2).
Proof.
  intro H. unfold mass_below.
  replace (Phi ((q - mu) / sigma) + 1 / 2) with (Phi ((q - mu) / sigma) - - (1 / 2)) by ring.
  apply (is_RInt_gen_below _ (fun x => Phi ((x - mu) / sigma))).
  - intros a b. apply (is_RInt_ext (fun x => / sigma * phi ((x - mu) / sigma))).
    { intros x _. rewrite gauss_edens by auto. unfold phi.
      replace (((x - mu) / sigma) ^ 2 / 2) with ((x - mu) ^ 2 / (2 * sigma ^ 2)) by (field; lra).
      rewrite (sqrt_mult (2 * PI)) by (try nra; pose proof PI_RGT_0; lra).
      rewrite sqrt_pow2 by lra. pose proof (sqrt_lt_R0 (2 * PI) ltac:(pose proof PI_RGT_0; lra)). asR. field. split; lra. }
    apply (is_RInt_derive (V := R_CompleteNormedModule) (fun x => Phi ((x - mu) / sigma)) (fun x => / sigma * phi ((x - mu) / sigma))).
    + intros x _. evar_last.
      * apply (is_derive_comp (V := R_NormedModule) Phi (fun x => (x - mu) / sigma) x (phi ((x - mu) / sigma)) (/ sigma)); [apply Phi_derive|].
        auto_derive; [lra|]. field. lra.
      * reflexivity.
    + intros x _. apply (ex_derive_continuous (V := R_NormedModule)). unfold phi. auto_derive; auto.
  - apply (is_lim_comp Phi (fun x => (x - mu) / sigma) m_infty (- (1 / 2)) m_infty).
    + apply Phi_lim_minus.
    + intros P [M HM]. exists (M * sigma + mu). intros x Hx. apply HM.
      apply (Rmult_lt_reg_r sigma); [lra|]. unfold Rdiv. rewrite Rmult_assoc, Rinv_l by lra. lra.
    + exists 0. intros; discriminate.
Qed.

Lemma gauss_quantile ppf s mu sigma : is_ppf ppf -> 0 < sigma ->
  quantile_map (transform ppf (PGaussian s mu sigma)) (gauss_d mu sigma) (fun _ => True).
Proof.
  intros HP H u Hu. eexists; split; [reflexivity|]. split; [auto|split].
  - pose proof (gauss_mass mu sigma (mu + sigma * ppf u) H) as Q.
    replace ((mu + sigma * ppf u - mu) / sigma) with (ppf u) in Q by (field; lra).
    rewrite (ppf_Phi ppf u HP Hu) in Q. exact Q.
  - intros u' Hu'. eexists; split; [reflexivity|]. pose proof (ppf_incr ppf u u' HP). nra.
Qed.

(** norm.ppf exists *)
Lemma ppf_exists : exists ppf, is_ppf ppf.
Proof.
  assert (forall u, 0 < u < 1 -> { x | Phi x + 1 / 2 = u }) as S.
  { intros u Hu.
    destruct (IVT_Rbar_incr Phi m_infty p_infty (- (1 / 2)) (1 / 2) (u - 1 / 2)) as [x Hx]; cbn; auto; try lra.
    - apply Phi_lim_minus.
    - apply Phi_lim_plus.
    - intros x _ _. apply continuity_pt_filterlim. apply (ex_derive_continuous (V := R_NormedModule)). eexists; apply Phi_derive.
    - exists x. destruct Hx as (_ & _ & E). rewrite E. ring. }
  exists (fun u => match Rlt_dec 0 u with
                   | left a => match Rlt_dec u 1 with left b => proj1_sig (S u (conj a b)) | right _ => 0 end
                   | right _ => 0 end).
  intros u Hu. destruct (Rlt_dec 0 u) as [a|]; [|lra]. destruct (Rlt_dec u 1) as [b|]; [|lra].
  destruct (S u (conj a b)) as [x Hx]. cbn [proj1_sig]. rewrite <- Hx at 1. apply Phi_mass.
Qed.
