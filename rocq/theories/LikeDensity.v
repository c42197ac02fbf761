(** C19, C20: RVLikelihood.logprob as a Gaussian log density, and the
    analytic marginalisation of the offset. *)
From Coq Require Import Reals String Arith Bool Lia Lra Psatz Permutation List.
From Coquelicot Require Import Coquelicot.
From Verif Require Import Py PyFloat PyFacts PyFloatFacts Params ParamsProofs Kepler Basis RVModel RVModelProofs Likelihood LikeSpec LikeProofs GaussInt.
Import ListNotations.
Open Scope R_scope.

(** the likelihood's arrays hold these data points *)
Definition has_data (l : rvlike) (data : list datum) : Prop :=
  l_x l = map d_t data /\ l_y l = map d_y data /\ l_yerr l = map d_err data.

Lemma ln_normal_pdf var x : 0 < var -> ln (normal_pdf var x) = - (1 / 2) * (x ^ 2 / var) - ln (sqrt (2 * PI * var)).
Proof.
  intro H. pose proof PI_RGT_0. assert (0 < sqrt (2 * PI * var)) by (apply sqrt_lt_R0; nra).
  unfold normal_pdf. rewrite ln_div by (auto; apply exp_pos). rewrite ln_exp. f_equal. field. lra.
Qed.

Lemma loglike_fin (r s : list R) jit : length r = length s -> (forall x, In x s -> 0 < sig_quad jit x) ->
  loglike_jitter r s jit = Ok (Fin (rsum (map2 (fun a b => ln (normal_pdf (sig_quad jit b) a)) r s))).
Proof.
  intros HL HW. unfold loglike_jitter. rewrite HL, Nat.eqb_refl. do 2 f_equal.
  rewrite (map_ext_in _ (fun x => Fin (ln (sqrt (2 * PI * sig_quad jit x))))).
  2:{ intros x Hx. specialize (HW x Hx). pose proof PI_RGT_0. assert (0 < 2 * PI * sig_quad jit x) by nra.
      rewrite ext_sqrt_fin by lra. apply ext_log_fin. now apply sqrt_lt_R0. }
  rewrite (map2_ext_in _ (fun a b => Fin (a ^ 2 / sig_quad jit b))).
  2:{ intros a b _ Hb. apply ext_div_fin. specialize (HW b Hb). lra. }
  rewrite <- (map_map2 Fin (fun a b => a ^ 2 / sig_quad jit b)), ext_sum_fin.
  rewrite <- (map_map (fun x => ln (sqrt (2 * PI * sig_quad jit x))) Fin), ext_sum_fin.
  cbn [ext_mul ext_sub ext_opp ext_add]. f_equal.
  revert s HL HW. induction r as [|a r IH]; intros [|b s] HL HW; cbn in HL; try discriminate; [cbn; ring|].
  cbn [map map2]. rewrite !rsum_cons, <- (IH s); [|lia|intros; apply HW; now right].
  assert (0 < sig_quad jit b) as Hb by (apply HW; now left). pose proof PI_RGT_0.
  rewrite ln_normal_pdf by auto. cbn. lra.
Qed.

Lemma residuals_plain fwd l v data f g gam :
  has_data l data -> fwd v (l_x l) = Ok (map f (l_x l)) -> l_decorr l = [] ->
  nth_error v (l_gidx l) = Some g -> marginalised g = false -> r_val g = Some gam ->
  rv_residuals fwd l v = (v, Ok (map (fun p => d_y p - gam - f (d_t p)) data)).
Proof.
  intros (DX & DY & DE) HF HD HG HM HV. unfold rv_residuals. rewrite HF, HG, HM, DX, DY, DE, HD.
  rewrite !map_length, Nat.eqb_refl. cbn [andb]. unfold vget. rewrite HG, HV. cbn [bind for_each].
  rewrite map_map, (map_map d_t f), map2_map_l, map2_map_r, map2_diag. reflexivity.
Qed.

Lemma ln_product {A} (p : A -> R) data : (forall a, In a data -> 0 < p a) ->
  0 < fold_right Rmult 1 (map p data) /\ ln (fold_right Rmult 1 (map p data)) = rsum (map (fun a => ln (p a)) data).
Proof.
  induction data as [|a r IH]; intro H; cbn [map fold_right].
  - split; [lra|]. cbn. apply ln_1.
  - destruct IH as [P E]; [intros; apply H; now right|]. assert (0 < p a) by (apply H; now left).
    split; [nra|]. rewrite ln_mult by auto. rewrite rsum_cons, E. reflexivity.
Qed.

Lemma normal_pdf_pos var x : 0 < var -> 0 < normal_pdf var x.
Proof.
  intro H. pose proof PI_RGT_0. unfold normal_pdf. apply Rdiv_lt_0_compat; [apply exp_pos|]. apply sqrt_lt_R0. nra.
Qed.

Lemma logprob_density fwd l v data f g gam jit :
  has_data l data -> fwd v (l_x l) = Ok (map f (l_x l)) -> l_decorr l = [] ->
  nth_error v (l_gidx l) = Some g -> marginalised g = false -> r_val g = Some gam ->
  vget v (l_jidx l) = Ok jit -> (forall p, In p data -> 0 < var_of jit p) ->
  rv_logprob fwd l v = (v, Ok (Fin (gauss_loglike f gam jit data))).
Proof.
  intros HD HF HC HG HM HV HJ HW. unfold rv_logprob. rewrite HJ.
  rewrite (residuals_plain _ _ _ _ _ _ _ HD HF HC HG HM HV). cbn [bind].
  destruct HD as (DX & DY & DE). rewrite DE, loglike_fin.
  - cbn [bind]. rewrite HG, HM. do 3 f_equal. unfold gauss_loglike.
    rewrite map2_map_l, map2_map_r, map2_diag. reflexivity.
  - now rewrite !map_length.
  - intros x Hx. apply in_map_iff in Hx. destruct Hx as (p & <- & Hp). exact (HW p Hp).
Qed.

(** residuals of any RV likelihood: logprob is the density of what residuals() returns *)
Lemma logprob_of_residuals fwd l v v1 r g jit :
  rv_residuals fwd l v = (v1, Ok r) -> vget v (l_jidx l) = Ok jit ->
  nth_error v1 (l_gidx l) = Some g -> marginalised g = false ->
  length r = length (l_yerr l) -> (forall s, In s (l_yerr l) -> 0 < s ^ 2 + jit ^ 2) ->
  rv_logprob fwd l v =
  (v1, Ok (Fin (rsum (map (fun p => ln (normal_pdf (snd p ^ 2 + jit ^ 2) (fst p))) (combine r (l_yerr l)))))).
Proof.
  intros HR HJ HG HM HL HW. unfold rv_logprob. rewrite HJ, HR. cbn [bind].
  rewrite loglike_fin by auto. cbn [bind]. rewrite HG, HM. rewrite map2_combine. reflexivity.
Qed.

(** ** the marginalised offset *)
Definition wsum (jit : R) (data : list datum) : R := rsum (map (fun p => / var_of jit p) data).
Definition zmean (f : R -> R) (jit : R) (data : list datum) : R :=
  rsum (map (fun p => (d_y p - f (d_t p)) / var_of jit p) data) / wsum jit data.

Lemma wsum_pos jit data : data <> [] -> (forall p, In p data -> 0 < var_of jit p) -> 0 < wsum jit data.
Proof.
  intros HN HW. apply rsum_pos; [destruct data; [congruence|discriminate]|].
  intros x Hx. apply in_map_iff in Hx. destruct Hx as (p & <- & Hp). apply Rinv_0_lt_compat. auto.
Qed.

Lemma chi2_shift f jit data z g : data <> [] -> (forall p, In p data -> 0 < var_of jit p) -> z = zmean f jit data ->
  chi2 f g jit data = chi2 f z jit data + wsum jit data * (g - z) ^ 2.
Proof.
  intros HN HW ->. pose proof (wsum_pos jit data HN HW) as HS. set (z := zmean f jit data).
  assert (rsum (map (fun p => (d_y p - f (d_t p)) / var_of jit p) data) = z * wsum jit data) as EZ.
  { unfold z, zmean. field. lra. }
  assert (forall c, chi2 f c jit data = rsum (map (fun p => (d_y p - f (d_t p)) ^ 2 / var_of jit p) data)
     + (-2 * c) * rsum (map (fun p => (d_y p - f (d_t p)) / var_of jit p) data) + c ^ 2 * wsum jit data) as Q.
  { intro c. unfold chi2, wsum. rewrite <- !rsum_map_mult, <- !rsum_map_plus. apply rsum_map_ext.
    intros p Hp. specialize (HW p Hp). field. lra. }
  rewrite (Q g), (Q z), EZ. ring.
Qed.

Lemma chi2_minimal f jit data g : data <> [] -> (forall p, In p data -> 0 < var_of jit p) ->
  chi2 f (zmean f jit data) jit data <= chi2 f g jit data.
Proof.
  intros HN HW. rewrite (chi2_shift f jit data (zmean f jit data) g HN HW eq_refl).
  pose proof (wsum_pos jit data HN HW) as HS. pose proof (pow2_ge_0 (g - zmean f jit data)) as HQ.
  pose proof (Rmult_le_pos _ _ (Rlt_le _ _ HS) HQ). lra.
Qed.

Lemma gauss_loglike_chi2 f g jit data : (forall p, In p data -> 0 < var_of jit p) ->
  gauss_loglike f g jit data = - (1 / 2) * chi2 f g jit data - rsum (map (fun p => ln (sqrt (2 * PI * var_of jit p))) data).
Proof.
  intro HW. unfold gauss_loglike, chi2. induction data as [|p r IH]; [cbn; ring|].
  cbn [map]. rewrite !rsum_cons, IH by (intros; apply HW; now right).
  assert (0 < var_of jit p) as Hp by (apply HW; now left). pose proof PI_RGT_0.
  rewrite ln_normal_pdf by auto. lra.
Qed.

Lemma gauss_like_pos f g jit data : (forall p, In p data -> 0 < var_of jit p) ->
  0 < gauss_like f g jit data /\ ln (gauss_like f g jit data) = gauss_loglike f g jit data.
Proof. intro HW. apply ln_product. intros p Hp. apply normal_pdf_pos. auto. Qed.

Lemma gauss_like_shift f jit data z g : data <> [] -> (forall p, In p data -> 0 < var_of jit p) -> z = zmean f jit data ->
  gauss_like f g jit data = gauss_like f z jit data * exp (- ((g - z) ^ 2 / (2 * / wsum jit data))).
Proof.
  intros HN HW HZ. pose proof (wsum_pos jit data HN HW) as HS.
  destruct (gauss_like_pos f g jit data HW) as [P1 L1], (gauss_like_pos f z jit data HW) as [P2 L2].
  apply ln_inv; auto; [apply Rmult_lt_0_compat; [auto|apply exp_pos]|].
  rewrite ln_mult, ln_exp, L1, L2 by (auto; apply exp_pos).
  rewrite !gauss_loglike_chi2 by auto. rewrite (chi2_shift f jit data z g HN HW HZ). field. lra.
Qed.

Lemma marginal_integral f jit data : data <> [] -> (forall p, In p data -> 0 < var_of jit p) ->
  is_RInt_gen (fun g => gauss_like f g jit data) (Rbar_locally m_infty) (Rbar_locally p_infty)
    (gauss_like f (zmean f jit data) jit data * sqrt (2 * PI * / wsum jit data)).
Proof.
  intros HN HW. set (z := zmean f jit data). pose proof (wsum_pos jit data HN HW) as HS.
  apply (is_RInt_gen_ext (fun g => scal (gauss_like f z jit data) (exp (- ((g - z) ^ 2 / (2 * / wsum jit data)))))).
  { apply filter_forall. intros ab g _. symmetry. exact (gauss_like_shift f jit data z g HN HW eq_refl). }
  apply (is_RInt_gen_scal (V := R_NormedModule) (fun g => exp (- ((g - z) ^ 2 / (2 * / wsum jit data))))).
  apply gauss_integral. now apply Rinv_0_lt_compat.
Qed.

Lemma ztil_fin (y m s : list R) jit : length m = length y -> length s = length y -> y <> [] ->
  (forall x, In x s -> 0 < sig_quad jit x) ->
  ztil_of y m s jit = Fin (rsum (map2 (fun d x => d / sig_quad jit x) (map2 Rminus y m) s) /
                           rsum (map (fun x => 1 / sig_quad jit x) s)).
Proof.
  intros L1 L2 HN HW. unfold ztil_of.
  rewrite (map2_ext_in _ (fun d x => Fin (d / sig_quad jit x))).
  2:{ intros a b _ Hb. apply ext_div_fin. specialize (HW b Hb). lra. }
  rewrite (map_ext_in _ (fun x => Fin (1 / sig_quad jit x))).
  2:{ intros b Hb. apply ext_div_fin. specialize (HW b Hb). lra. }
  rewrite <- (map_map2 Fin (fun d x => d / sig_quad jit x)), <- (map_map (fun x => 1 / sig_quad jit x) Fin), !ext_sum_fin.
  apply ext_div_fin. apply Rgt_not_eq. apply rsum_pos.
  - destruct s, y; cbn in *; congruence.
  - intros x Hx. apply in_map_iff in Hx. destruct Hx as (b & <- & Hb). apply Rdiv_lt_0_compat; [lra|auto].
Qed.

(** once a summand is not finite, so is the sum *)
Lemma ext_sum_inf_from l : forall a, isfinite (fold_left ext_add l a) = true -> isfinite a = true /\ forall x, In x l -> isfinite x = true.
Proof.
  induction l as [|x l IH]; intros a H; cbn in H; [split; auto; contradiction|].
  destruct (IH _ H) as [A B]. destruct a, x; cbn in *; try discriminate; (split; [auto|]); intros y [<-|Hy]; auto.
Qed.

(** ztil is never infinite: the stored offset is always a number *)
Lemma ztil_finite y m s jit : length m = length y -> length s = length y -> exists z, ztil_value (ztil_of y m s jit) = Some z.
Proof.
  intros L1 L2. destruct y as [|y0 y].
  { destruct m, s; try discriminate. exists 0. unfold ztil_of, ext_sum. cbn [map map2 fold_left ext_div].
    unfold reqb. destruct (Req_EM_T 0 0); [|congruence]. unfold inf_of, rltb. destruct (Rlt_dec 0 0); [lra|]. reflexivity. }
  destruct (Forall_Exists_dec (fun x => 0 < sig_quad jit x)) with (l := s) as [F|E].
  { intro x. destruct (Rlt_dec 0 (sig_quad jit x)); [left|right]; auto. }
  { rewrite ztil_fin; [eexists; reflexivity|auto|auto|discriminate|]. now apply Forall_forall. }
  apply Exists_exists in E. destruct E as (x & Hx & Nx).
  assert (sig_quad jit x = 0) as E0 by (unfold sig_quad in *; nra).
  assert (ext_sum (map (fun s => ext_div (Fin 1) (Fin (sig_quad jit s))) s) = PInf) as ED.
  { assert (forall l a, (a = PInf \/ (exists r, a = Fin r) /\ In PInf l) -> (forall e, In e l -> e = PInf \/ exists r, e = Fin r) ->
              fold_left ext_add l a = PInf) as Q.
    { clear. induction l as [|e l IH]; intros a Ha Hl; cbn.
      - destruct Ha as [->|[_ []]]; auto.
      - apply IH; [|intros; apply Hl; now right].
        destruct (Hl e (or_introl eq_refl)) as [->|[r ->]], Ha as [->|[[q ->] Hin]]; cbn; auto.
        right. split; [eauto|]. destruct Hin as [|]; [discriminate|auto]. }
    unfold ext_sum. apply Q.
    - right. split; [eauto|]. apply in_map_iff. exists x. split; auto. rewrite E0. cbn. unfold reqb.
      destruct (Req_EM_T 0 0); [|congruence]. unfold inf_of, rltb. destruct (Rlt_dec 0 1); [auto|lra].
    - intros e He. apply in_map_iff in He. destruct He as (b & <- & _). cbn. unfold reqb.
      destruct (Req_EM_T _ 0); [left|right; eauto]. unfold inf_of, rltb. destruct (Rlt_dec 0 1); [auto|lra]. }
  unfold ztil_of. rewrite ED.
  set (num := ext_sum _). assert (isfinite num = false) as HI.
  { destruct (isfinite num) eqn:Ef; auto. exfalso. unfold num, ext_sum in Ef.
    destruct (ext_sum_inf_from _ _ Ef) as [_ B].
    apply In_nth_error in Hx. destruct Hx as [i Hi].
    assert (length (map2 Rminus (y0 :: y) m) = length s) as LL by (rewrite length_map2; cbn in *; congruence).
    destruct (nth_error (map2 Rminus (y0 :: y) m) i) as [d|] eqn:Ed.
    2:{ apply nth_error_None in Ed. assert (i < length s)%nat by (apply nth_error_Some; congruence). lia. }
    specialize (B (ext_div (Fin d) (Fin (sig_quad jit x)))).
    assert (In (ext_div (Fin d) (Fin (sig_quad jit x)))
      (map2 (fun d s => ext_div (Fin d) (Fin (sig_quad jit s))) (map2 Rminus (y0 :: y) m) s)) as Hin.
    { eapply nth_error_In. apply (nth_map2 (fun d s => ext_div (Fin d) (Fin (sig_quad jit s)))); eauto. }
    specialize (B Hin). rewrite E0 in B. cbn in B. unfold reqb in B. destruct (Req_EM_T 0 0); [|congruence].
    unfold inf_of, rltb in B. destruct (Rlt_dec 0 d); [discriminate|]. destruct (Rlt_dec d 0); discriminate. }
  destruct num; cbn in *; try discriminate; exists 0; reflexivity.
Qed.

Lemma logprob_marginal fwd l v data f g jit :
  has_data l data -> fwd v (l_x l) = Ok (map f (l_x l)) -> l_decorr l = [] -> data <> [] ->
  nth_error v (l_gidx l) = Some g -> marginalised g = true -> l_jidx l <> l_gidx l ->
  vget v (l_jidx l) = Ok jit -> (forall p, In p data -> 0 < var_of jit p) ->
  let z := zmean f jit data in
  rv_residuals fwd l v = (setval v (l_gidx l) (Some z), Ok (map (fun p => d_y p - z - f (d_t p)) data)) /\
  rv_logprob fwd l v =
    (setval v (l_gidx l) (Some z), Ok (Fin (gauss_loglike f z jit data + ln (sqrt (2 * PI * / wsum jit data))))).
Proof.
  intros (DX & DY & DE) HF HC HN HG HM HJG HJ HW z.
  assert (rv_residuals fwd l v = (setval v (l_gidx l) (Some z), Ok (map (fun p => d_y p - z - f (d_t p)) data))) as HR.
  { unfold rv_residuals. rewrite HF, HG, HM, HJ, DX, DY, DE, HC, !map_length, Nat.eqb_refl. cbn [andb].
    rewrite ztil_fin; [|now rewrite !map_length|now rewrite !map_length|destruct data; [congruence|discriminate]|].
    2:{ intros x Hx. apply in_map_iff in Hx. destruct Hx as (p & <- & Hp). exact (HW p Hp). }
    cbn [ztil_value].
    assert (rsum (map2 (fun d x => d / sig_quad jit x) (map2 Rminus (map d_y data) (map f (map d_t data))) (map d_err data)) /
      rsum (map (fun x => 1 / sig_quad jit x) (map d_err data)) = z) as ->.
    { unfold z, zmean, wsum. rewrite (map_map d_t f), (map2_map_l Rminus), (map2_map_r _ (fun x => f (d_t x)) data data), map2_diag, map2_map_l, map2_map_r, map2_diag, map_map.
      f_equal. f_equal. apply map_ext. intro p. unfold sig_quad, var_of, Rdiv. ring. }
    unfold vget. rewrite (nth_setval_same _ _ _ _ HG). cbn [r_val bind for_each].
    rewrite map_map, (map_map d_t f), map2_map_l, map2_map_r, map2_diag. reflexivity. }
  split; auto. unfold rv_logprob. rewrite HJ, HR. cbn [bind]. rewrite DE, loglike_fin.
  - cbn [bind]. rewrite (nth_setval_same _ _ _ _ HG).
    change (marginalised (mkRow (Some z) (r_vary g) (r_scale g) (r_lin g))) with (marginalised g). rewrite HM.
    rewrite (map_ext_in _ (fun x => Fin (/ sig_quad jit x))).
    2:{ intros b Hb. apply in_map_iff in Hb. destruct Hb as (p & <- & Hp). rewrite ext_div_fin.
        - unfold Rdiv. now rewrite Rmult_1_l.
        - specialize (HW p Hp). change (sig_quad jit (d_err p)) with (var_of jit p). lra. }
    rewrite <- (map_map (fun x => / sig_quad jit x) Fin), ext_sum_fin.
    assert (rsum (map (fun x => / sig_quad jit x) (map d_err data)) = wsum jit data) as -> by (rewrite map_map; reflexivity).
    pose proof (wsum_pos jit data HN HW) as HS. rewrite ext_div_fin by lra. cbn [ext_mul].
    pose proof PI_RGT_0. assert (0 < 2 * PI * (1 / wsum jit data)) as HP.
    { apply Rmult_lt_0_compat; [lra|]. apply Rdiv_lt_0_compat; lra. }
    rewrite ext_sqrt_fin by lra. rewrite ext_log_fin by (now apply sqrt_lt_R0). cbn [ext_add].
    rewrite map2_map_l, map2_map_r, map2_diag. do 3 f_equal. f_equal. f_equal. f_equal. unfold Rdiv. ring.
  - now rewrite !map_length.
  - intros x Hx. apply in_map_iff in Hx. destruct Hx as (p & <- & Hp). exact (HW p Hp).
Qed.

(** C20 in one statement *)
Lemma marginalisation fwd l v data f g jit :
  has_data l data -> fwd v (l_x l) = Ok (map f (l_x l)) -> l_decorr l = [] -> data <> [] ->
  nth_error v (l_gidx l) = Some g -> r_lin g = true -> r_vary g = false -> l_jidx l <> l_gidx l ->
  vget v (l_jidx l) = Ok jit -> (forall p, In p data -> 0 < var_of jit p) ->
  exists v1 z L I, rv_logprob fwd l v = (v1, Ok (Fin L)) /\
    rv_residuals fwd l v = (v1, Ok (map (fun p => d_y p - z - f (d_t p)) data)) /\
    vget v1 (l_gidx l) = Ok z /\
    (forall c, chi2 f z jit data <= chi2 f c jit data) /\
    is_RInt_gen (fun c => gauss_like f c jit data) (Rbar_locally m_infty) (Rbar_locally p_infty) I /\
    0 < I /\ L = ln I.
Proof.
  intros HD HF HC HN HG HL HV HJG HJ HW.
  assert (marginalised g = true) as HM by (unfold marginalised; now rewrite HL, HV).
  destruct (logprob_marginal fwd l v data f g jit HD HF HC HN HG HM HJG HJ HW) as [R1 R2].
  pose proof (wsum_pos jit data HN HW) as HS.
  destruct (gauss_like_pos f (zmean f jit data) jit data HW) as [P Q].
  assert (0 < sqrt (2 * PI * / wsum jit data)) as HQ.
  { apply sqrt_lt_R0. pose proof PI_RGT_0. apply Rmult_lt_0_compat; [lra|]. now apply Rinv_0_lt_compat. }
  do 4 eexists. split; [exact R2|]. split; [exact R1|]. split.
  { unfold vget. rewrite (nth_setval_same _ _ _ _ HG). reflexivity. }
  split. { intro c. now apply chi2_minimal. }
  split. { now apply marginal_integral. }
  split. { now apply Rmult_lt_0_compat. }
  rewrite ln_mult, Q by auto. reflexivity.
Qed.

(** ** order of the data; splitting *)
Lemma gauss_loglike_perm f g jit d d' : Permutation d d' -> gauss_loglike f g jit d = gauss_loglike f g jit d'.
Proof. intro H. apply rsum_perm. now apply Permutation_map. Qed.

Lemma zmean_perm f jit d d' : Permutation d d' -> zmean f jit d = zmean f jit d'.
Proof. intro H. unfold zmean, wsum. f_equal; apply rsum_perm; now apply Permutation_map. Qed.

Lemma logprob_perm fwd l l' v data data' f g jit :
  has_data l data -> has_data l' data' -> Permutation data data' ->
  l_gidx l' = l_gidx l -> l_jidx l' = l_jidx l -> l_decorr l = [] -> l_decorr l' = [] ->
  fwd v (l_x l) = Ok (map f (l_x l)) -> fwd v (l_x l') = Ok (map f (l_x l')) ->
  nth_error v (l_gidx l) = Some g -> (exists gam, r_val g = Some gam) -> l_jidx l <> l_gidx l ->
  vget v (l_jidx l) = Ok jit -> data <> [] -> (forall p, In p data -> 0 < var_of jit p) ->
  rv_logprob fwd l v = rv_logprob fwd l' v.
Proof.
  intros HD HD' HP EG EJ HC HC' HF HF' HG [gam HV] HJG HJ HN HW.
  assert (forall p, In p data' -> 0 < var_of jit p) as HW'.
  { intros p Hp. apply HW. now apply (Permutation_in _ (Permutation_sym HP)). }
  assert (data' <> []) as HN'.
  { intros ->. apply Permutation_sym, Permutation_nil in HP. congruence. }
  destruct (marginalised g) eqn:HM.
  - destruct (logprob_marginal fwd l v data f g jit HD HF HC HN HG HM HJG HJ HW) as [_ ->].
    destruct (logprob_marginal fwd l' v data' f g jit HD' HF' HC' HN') as [_ ->]; auto; try congruence.
    rewrite EG, (zmean_perm f jit data data' HP), (gauss_loglike_perm _ _ _ data data' HP).
    unfold wsum. rewrite (rsum_perm (map (fun p => / var_of jit p) data) (map (fun p => / var_of jit p) data')); auto.
    now apply Permutation_map.
  - rewrite (logprob_density fwd l v data f g gam jit) by auto.
    rewrite (logprob_density fwd l' v data' f g gam jit); auto; try congruence.
    now rewrite (gauss_loglike_perm _ _ _ data data' HP).
Qed.

Lemma gauss_loglike_app f g jit d d' : gauss_loglike f g jit (d ++ d') = gauss_loglike f g jit d + gauss_loglike f g jit d'.
Proof. unfold gauss_loglike. rewrite map_app. apply rsum_app. Qed.

Lemma logprob_split fwd l l1 l2 v d1 d2 f g gam jit :
  has_data l (d1 ++ d2) -> has_data l1 d1 -> has_data l2 d2 ->
  l_gidx l1 = l_gidx l -> l_jidx l1 = l_jidx l -> l_gidx l2 = l_gidx l -> l_jidx l2 = l_jidx l ->
  l_decorr l = [] -> l_decorr l1 = [] -> l_decorr l2 = [] ->
  fwd v (l_x l) = Ok (map f (l_x l)) -> fwd v (l_x l1) = Ok (map f (l_x l1)) -> fwd v (l_x l2) = Ok (map f (l_x l2)) ->
  nth_error v (l_gidx l) = Some g -> marginalised g = false -> r_val g = Some gam ->
  vget v (l_jidx l) = Ok jit -> (forall p, In p (d1 ++ d2) -> 0 < var_of jit p) ->
  exists a b, rv_logprob fwd l1 v = (v, Ok (Fin a)) /\ rv_logprob fwd l2 v = (v, Ok (Fin b)) /\
    rv_logprob fwd l v = (v, Ok (Fin (a + b))).
Proof.
  intros HD H1 H2 E1 E2 E3 E4 C C1 C2 F F1 F2 HG HM HV HJ HW.
  exists (gauss_loglike f gam jit d1), (gauss_loglike f gam jit d2).
  split; [|split].
  - apply (logprob_density _ _ _ _ _ g); auto; try congruence. intros; apply HW; apply in_or_app; auto.
  - apply (logprob_density _ _ _ _ _ g); auto; try congruence. intros; apply HW; apply in_or_app; auto.
  - rewrite <- gauss_loglike_app. now apply (logprob_density _ _ _ _ _ g).
Qed.
