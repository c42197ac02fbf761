(** Counterexamples for the GP likelihood and the alignment of the celerite data. *)
From Coq Require Import Reals String Arith Bool Lra Lia Permutation Sorted List.
From Verif Require Import Py PyFloat PyFacts Params Kepler Basis Likelihood Gp GpSpec PsdProofs GpProofs GpHist.
Import ListNotations.
Open Scope R_scope.

Definition ex_ps0 : params := mkParams [] (basis_init "per tp e w k" 1) 1 [] None.
Definition gp_row (x : R) : row := mkRow (Some x) false None false.
Definition zero_fwd : forward := fun _ xs => Ok (map (fun _ => 0) xs).

(** exact linear algebra for 1 x 1 matrices *)
Definition la1 : linalg :=
  mkLA (fun K r => match K, r with
                   | [[Fin k]], [a] => if rltb 0 k then Ok (a ^ 2 / k) else Err LinAlgError
                   | _, _ => Err ValueError end)
       (fun K => match K with [[Fin k]] => Fin (ln k) | _ => NaN end)
       (fun K => match K with [[Fin k]] => if rltb 0 k then Ok tt else Err LinAlgError | _ => Err LinAlgError end)
       (fun _ _ _ => []) (fun _ _ _ => []).

(** ** QuasiPer with a zero hyper-parameter *)

Definition qidx : dict nat :=
  [("gamma", 0%nat); ("jit", 1%nat); ("gp_perlength", 2%nat); ("gp_amp", 3%nat); ("gp_per", 4%nat); ("gp_explength", 5%nat)]%string.
Definition qnames := ["gp_per"; "gp_perlength"; "gp_explength"; "gp_amp"]%string.
Definition qlike (t y e : R) : rvlike := mkLike [t] [y] [e] "gamma" "jit" 0 1 "" [] [] [] ex_ps0 qidx.
Definition qgp (t y e : R) : gplike := mkGP (qlike t y e) qnames QuasiPer.
Definition qrow (gam jit pl amp per el : R) : list row := map gp_row [gam; jit; pl; amp; per; el].
Definition qh (pl amp per el : R) : dict (option R) :=
  [("gp_per", Some per); ("gp_perlength", Some pl); ("gp_explength", Some el); ("gp_amp", Some amp)]%string.

(** what gp_init builds *)
Lemma q_init t y e pl amp per el :
  gp_init (qlike t y e) qnames QuasiPer [("gp_perlength", Some pl); ("gp_amp", Some amp); ("gp_per", Some per); ("gp_explength", Some el)]%string
  = Ok (qgp t y e, mkK (qh pl amp per el) None (cdist [t] [t])).
Proof. reflexivity. Qed.
Lemma q_covers t y e : covers (qgp t y e).
Proof.
  intros s Hs. cbn in Hs. decompose [or] Hs; try contradiction; subst s;
  match goal with |- exists name, _ /\ _ /\ hkey name = Ok ?x => exists x end; (split; [|split; [|reflexivity]]); cbn; tauto.
Qed.
Lemma q_update t y e gam jit pl amp per el p1 p2 p3 p4 cov d :
  update_kernel_params (qgp t y e) (qrow gam jit pl amp per el) (mkK (qh p1 p2 p3 p4) cov d) = Ok (mkK (qh pl amp per el) cov d).
Proof. reflexivity. Qed.
Lemma qh_ok pl amp per el : quasi_h (qh pl amp per el) pl amp per el.
Proof. repeat split. Qed.

Lemma q_resids t y e gam jit pl amp per el :
  gp_resids zero_fwd (g_like (qgp t y e)) (qrow gam jit pl amp per el) = Ok [y - gam - 0].
Proof. reflexivity. Qed.
Lemma q_errorbars t y e gam jit pl amp per el :
  rv_errorbars (g_like (qgp t y e)) (qrow gam jit pl amp per el) = Ok [sqrt (sig_quad jit e)].
Proof. reflexivity. Qed.

Lemma q_logprob_zero la t y e gam jit pl per el k p1 p2 p3 p4 cov : 0 <= pl -> 0 <= per -> 0 <= el ->
  k = mkK (qh p1 p2 p3 p4) cov (cdist [t] [t]) ->
  snd (gp_logprob zero_fwd la (qgp t y e) (qrow gam jit pl 0 per el) k) = gp_try la cov [y - gam - 0] 1.
Proof.
  intros H1 H2 H3 ->. unfold gp_logprob. rewrite q_update, q_resids, q_errorbars.
  destruct (quasi_zero (qh pl 0 per el) cov (cdist [t] [t]) [t] [sqrt (sig_quad jit e)] pl 0 per el) as [m [E _]]; auto; try lra; [apply qh_ok|].
  unfold set_dist in E. cbn [k_h k_cov] in E. change (g_kind (qgp t y e)) with QuasiPer. rewrite E. reflexivity.
Qed.
Lemma q_logprob_pos la t y e gam jit pl amp per el k p1 p2 p3 p4 cov : 0 < pl -> 0 < amp -> 0 < per -> 0 < el ->
  k = mkK (qh p1 p2 p3 p4) cov (cdist [t] [t]) ->
  fst (gp_logprob zero_fwd la (qgp t y e) (qrow gam jit pl amp per el) k)
  = mkK (qh pl amp per el) (Some [[Fin (quasi_entry pl amp per el (Rabs (t - t)) + sqrt (sig_quad jit e) ^ 2)]]) (cdist [t] [t]).
Proof.
  intros H1 H2 H3 H4 ->. unfold gp_logprob. rewrite q_update, q_resids, q_errorbars.
  change (g_kind (qgp t y e)) with QuasiPer.
  rewrite (quasi_run _ _ _ _ _ _ _ _ (qh_ok pl amp per el)) by auto. reflexivity.
Qed.

Lemma quasi_entry_pos pl amp per el d : 0 < amp -> 0 < quasi_entry pl amp per el d.
Proof.
  intro H. unfold quasi_entry. apply Rmult_lt_0_compat; [apply Rmult_lt_0_compat|]; try apply exp_pos. now apply pow_lt.
Qed.

(** the same vector, first evaluated on the new object and then after another
    vector has been evaluated: -inf, then a number *)
Lemma gp_stale : exists g k v v1 x, covers g /\
  gp_init (g_like g) (g_hnames g) (g_kind g) [("gp_perlength", Some 1); ("gp_amp", Some 0); ("gp_per", Some 1); ("gp_explength", Some 1)]%string = Ok (g, k) /\
  snd (gp_logprob zero_fwd la1 g v k) = Ok NInf /\
  snd (gp_logprob zero_fwd la1 g v (fst (gp_logprob zero_fwd la1 g v1 k))) = Ok (Fin x).
Proof.
  exists (qgp 0 0 1), (mkK (qh 1 0 1 1) None (cdist [0] [0])), (qrow 0 0 1 0 1 1), (qrow 0 0 1 1 1 1).
  assert (snd (gp_logprob zero_fwd la1 (qgp 0 0 1) (qrow 0 0 1 0 1 1)
    (fst (gp_logprob zero_fwd la1 (qgp 0 0 1) (qrow 0 0 1 1 1 1) (mkK (qh 1 0 1 1) None (cdist [0] [0])))))
    = gp_try la1 (Some [[Fin (quasi_entry 1 1 1 1 (Rabs (0 - 0)) + sqrt (sig_quad 0 1) ^ 2)]]) [0 - 0 - 0] 1) as E.
  { apply (q_logprob_zero la1 0 0 1 0 0 1 1 1 _ 1 1 1 1); try lra.
    apply (q_logprob_pos la1 0 0 1 0 0 1 1 1 1 _ 1 0 1 1 None); auto; lra. }
  pose proof (quasi_entry_pos 1 1 1 1 (Rabs (0 - 0)) ltac:(lra)) as P.
  set (q := quasi_entry 1 1 1 1 (Rabs (0 - 0)) + sqrt (sig_quad 0 1) ^ 2) in *.
  assert (0 < q) as Q by (unfold q; pose proof (pow2_ge_0 (sqrt (sig_quad 0 1))); lra).
  eexists. split; [apply q_covers|]. split; [apply q_init|]. split.
  - rewrite (q_logprob_zero la1 0 0 1 0 0 1 1 1 _ 1 0 1 1 None); auto; lra.
  - rewrite E. unfold gp_try, la1. cbn [la_quad la_logdet].
    assert (rltb 0 q = true) as -> by (unfold rltb; destruct (Rlt_dec 0 q); auto; contradiction).
    cbn [bind ext_mul ext_add]. reflexivity.
Qed.

(** ** A predict that raises *)

Definition sidx : dict nat := [("gamma", 0%nat); ("jit", 1%nat); ("gp_length", 2%nat); ("gp_amp", 3%nat)]%string.
Definition snames := ["gp_length"; "gp_amp"]%string.
Definition slike (t y e : R) : rvlike := mkLike [t] [y] [e] "gamma" "jit" 0 1 "" [] [] [] ex_ps0 sidx.
Definition sgp (t y e : R) : gplike := mkGP (slike t y e) snames SqExp.
Definition srow (gam jit len amp : R) : list row := map gp_row [gam; jit; len; amp].
Definition sh (len amp : R) : dict (option R) := [("gp_length", Some len); ("gp_amp", Some amp)]%string.

Lemma s_init t y e len amp :
  gp_init (slike t y e) snames SqExp (sh len amp) = Ok (sgp t y e, mkK (sh len amp) None (cdist [t] [t])).
Proof. reflexivity. Qed.
Lemma s_covers t y e : covers (sgp t y e).
Proof. intros s Hs. cbn in Hs. decompose [or] Hs; try contradiction; subst s;
  match goal with |- exists name, _ /\ _ /\ hkey name = Ok ?x => exists x end; (split; [|split; [|reflexivity]]); cbn; tauto. Qed.

Lemma s_cov len amp cov d e : len <> 0 ->
  compute_covmatrix SqExp (mkK (sh len amp) cov [[d]]) (inr [e])
  = (mkK (sh len amp) (Some [[Fin (amp ^ 2 * exp (- d ^ 2 / len ^ 2) + e ^ 2)]]) [[d]],
     Ok [[Fin (amp ^ 2 * exp (- d ^ 2 / len ^ 2) + e ^ 2)]]).
Proof.
  intro H. unfold compute_covmatrix, hval, sh. cbn [k_h k_dist dget_res dget]. cbn [String.eqb Ascii.eqb Bool.eqb].
  cbn [map]. unfold dget_res; cbn [dget String.eqb Ascii.eqb Bool.eqb]. rewrite sqexp_fin by auto. reflexivity.
Qed.
Lemma s_cov0 len amp cov d : len <> 0 -> exists m,
  compute_covmatrix SqExp (mkK (sh len amp) cov [[d]]) (inl 0) = (mkK (sh len amp) (Some m) [[d]], Ok m).
Proof. intro H. eexists. reflexivity. Qed.

Lemma s_update t y e gam jit len amp p1 p2 cov d :
  update_kernel_params (sgp t y e) (srow gam jit len amp) (mkK (sh p1 p2) cov d) = Ok (mkK (sh len amp) cov d).
Proof. reflexivity. Qed.

Lemma s_logprob t y e gam jit len amp p1 p2 cov d : len <> 0 ->
  snd (gp_logprob zero_fwd la1 (sgp t y e) (srow gam jit len amp) (mkK (sh p1 p2) cov [[d]]))
  = gp_try la1 (Some [[Fin (amp ^ 2 * exp (- d ^ 2 / len ^ 2) + sqrt (sig_quad jit e) ^ 2)]]) [y - gam - 0] 1.
Proof.
  intro H. unfold gp_logprob. rewrite s_update.
  change (gp_resids zero_fwd (g_like (sgp t y e)) (srow gam jit len amp)) with (@Ok (list R) [y - gam - 0]).
  change (rv_errorbars (g_like (sgp t y e)) (srow gam jit len amp)) with (Ok [sqrt (sig_quad jit e)]).
  change (g_kind (sgp t y e)) with SqExp. cbv iota beta. rewrite s_cov by auto. reflexivity.
Qed.

(** err = jit = 0 and amp = 0: the covariance is the zero matrix, cho_factor raises *)
Lemma s_predict_raises t y len p1 p2 cov xp : len <> 0 -> exists m,
  gp_predict zero_fwd la1 (sgp t y 0) (srow 0 0 len 0) (mkK (sh p1 p2) cov (cdist [t] [t])) [xp]
  = (mkK (sh len 0) m [[Rabs (xp - t)]], Err LinAlgError).
Proof.
  intro H. unfold gp_predict. rewrite s_update.
  change (gp_resids zero_fwd (g_like (sgp t y 0)) (srow 0 0 len 0)) with (@Ok (list R) [y - 0 - 0]).
  change (rv_errorbars (g_like (sgp t y 0)) (srow 0 0 len 0)) with (Ok [sqrt (sig_quad 0 0)]).
  change (g_kind (sgp t y 0)) with SqExp. unfold set_dist. cbn [k_h k_cov g_like l_x sgp slike cdist map].
  cbv iota beta. rewrite s_cov by auto.
  set (z := 0 ^ 2 * _ + _). assert (z = 0) as Z.
  { unfold z, sig_quad. replace (0 ^ 2 + 0 ^ 2) with 0 by ring. rewrite sqrt_0. ring. }
  clearbody z. subst z. cbn [has_nan_or_inf existsb isfinite negb orb k_h k_cov].
  destruct (s_cov0 len 0 (Some [[Fin 0]]) (Rabs (xp - t)) H) as [m E]. unfold has_nan_or_inf. cbn [existsb isfinite negb orb k_h k_cov].
  rewrite E. unfold la1 at 1. cbn [la_chol].
  assert (rltb 0 0 = false) as -> by (unfold rltb; destruct (Rlt_dec 0 0); auto; lra).
  eexists. reflexivity.
Qed.

Lemma gp_predict_damage : exists g k v0 v xp e k' a b, covers g /\
  gp_init (g_like g) (g_hnames g) (g_kind g) [("gp_length", Some 1); ("gp_amp", Some 1)]%string = Ok (g, k) /\
  gp_predict zero_fwd la1 g v0 k xp = (k', Err e) /\
  snd (gp_logprob zero_fwd la1 g v k) = Ok (Fin a) /\
  snd (gp_logprob zero_fwd la1 g v k') = Ok (Fin b) /\ a <> b.
Proof.
  destruct (s_predict_raises 0 0 1 1 1 None 1 ltac:(lra)) as [m E].
  exists (sgp 0 0 0), (mkK (sh 1 1) None (cdist [0] [0])), (srow 0 0 1 0), (srow 0 1 1 1), [1], LinAlgError.
  eexists. 
  assert (forall q, 0 < q -> exists z, gp_try la1 (Some [[Fin q]]) [0 - 0 - 0] 1 = Ok (Fin z) /\ z = - (1 / 2) * (ln q + ln (2 * PI))) as T.
  { intros q Hq. unfold gp_try, la1. cbn [la_quad la_logdet].
    assert (rltb 0 q = true) as -> by (unfold rltb; destruct (Rlt_dec 0 q); auto; contradiction).
    cbn [bind ext_mul ext_add]. eexists. split; [reflexivity|]. cbn [INR]. field. lra. }
  pose proof (exp_pos (-1)).
  assert (sqrt (sig_quad 1 0) ^ 2 = 1) as S1.
  { unfold sig_quad. replace (0 ^ 2 + 1 ^ 2) with 1 by ring. rewrite sqrt_1. ring. }
  set (q1 := 1 ^ 2 * exp (- Rabs (0 - 0) ^ 2 / 1 ^ 2) + sqrt (sig_quad 1 0) ^ 2).
  set (q2 := 1 ^ 2 * exp (- Rabs (1 - 0) ^ 2 / 1 ^ 2) + sqrt (sig_quad 1 0) ^ 2).
  assert (q1 = 2) as Q1.
  { unfold q1. rewrite S1, Rminus_eq_0, Rabs_R0. replace (- 0 ^ 2 / 1 ^ 2) with 0 by field. rewrite exp_0. ring. }
  assert (q2 = exp (-1) + 1) as Q2.
  { unfold q2. rewrite S1, Rminus_0_r, Rabs_R1. replace (- 1 ^ 2 / 1 ^ 2) with (-1) by field. ring. }
  destruct (T q1 ltac:(lra)) as [a [Ta Ea]]. destruct (T q2 ltac:(lra)) as [b [Tb Eb]].
  exists a, b. split; [apply s_covers|]. split; [apply s_init|]. split; [exact E|].
  split; [rewrite <- Ta; apply (s_logprob 0 0 0 0 1 1 1 1 1 None (Rabs (0 - 0))); lra|].
  split; [rewrite <- Tb; apply (s_logprob 0 0 0 0 1 1 1 1 0 m (Rabs (1 - 0))); lra|].
  intro Eq. assert (ln q1 = ln q2) as L by lra. apply ln_inv in L; [|lra|lra].
  assert (exp (-1) < 1); [|lra]. rewrite <- exp_0. apply exp_increasing. lra.
Qed.

(** ** Celerite *)

Record point := mkPt { p_t : R; p_y : R; p_e : R }.

(** the solver sees every observation once, each with its own time, variance and residual *)
Definition aligned (pts : list point) (jit gam : R) (f : R -> R) (c : solver_call) : Prop :=
  exists pts', Permutation pts pts' /\
    s_t c = map p_t pts' /\
    s_diag c = map (fun p => p_e p ^ 2 + jit ^ 2) pts' /\
    s_rhs c = map (fun p => p_y p - gam - f (p_t p)) pts'.

Definition sorting (x : list R) (order : list nat) : Prop :=
  Permutation (seq 0 (length x)) order /\ StronglySorted Rle (pick x order).

Lemma pick_map {A B} (f : A -> B) l order : pick (map f l) order = map f (pick l order).
Proof.
  unfold pick. induction order as [|i o IH]; cbn; auto. rewrite IH, nth_error_map, map_app.
  destruct (nth_error l i); reflexivity.
Qed.
Lemma pick_seq {A} (l : list A) : forall pre, pick (pre ++ l) (seq (length pre) (length l)) = l.
Proof.
  induction l as [|a l IH]; intro pre; cbn; auto.
  rewrite nth_error_app2, Nat.sub_diag by lia. cbn. f_equal.
  specialize (IH (pre ++ [a])%list). rewrite <- app_assoc in IH. cbn in IH.
  rewrite app_length in IH. cbn in IH. rewrite Nat.add_1_r in IH. exact IH.
Qed.
Lemma pick_perm {A} (l : list A) order : Permutation (seq 0 (length l)) order -> Permutation l (pick l order).
Proof.
  intro H. rewrite <- (pick_seq l []) at 1. cbn [length app]. unfold pick. now apply Permutation_flat_map.
Qed.

Lemma sorted_perm_eq (a : list R) : forall b, StronglySorted Rle a -> StronglySorted Rle b -> Permutation a b -> a = b.
Proof.
  induction a as [|x a IH]; intros b Sa Sb P.
  - apply Permutation_nil in P. auto.
  - destruct b as [|y b]; [symmetry in P; apply Permutation_nil in P; discriminate|].
    inversion Sa as [|? ? Sa1 Sa2]; subst. inversion Sb as [|? ? Sb1 Sb2]; subst.
    assert (x = y) as ->.
    { rewrite Forall_forall in Sa2, Sb2.
      assert (In y (x :: a)) as [->|Hy] by (eapply Permutation_in; [symmetry; exact P|now left]); auto.
      assert (In x (y :: b)) as [->|Hx] by (eapply Permutation_in; [exact P|now left]); auto.
      apply Rle_antisym; auto. }
    f_equal. apply IH; auto. now apply Permutation_cons_inv in P.
Qed.

Definition cel_data (l : rvlike) (pts : list point) : Prop :=
  l_x l = map p_t pts /\ l_y l = map p_y pts /\ l_yerr l = map p_e pts.

Lemma map2_minus f (pts : list point) gam :
  map2 Rminus (map (fun y => y - gam) (map p_y pts)) (map f (map p_t pts)) = map (fun p => p_y p - gam - f (p_t p)) pts.
Proof. induction pts as [|p pts IH]; cbn; auto. now rewrite IH. Qed.

Lemma cel_resids (fwd : forward) f l order pts v gam : cel_data l pts -> (forall xs, fwd v xs = Ok (map f xs)) ->
  vget v (l_gidx l) = Ok gam ->
  gp_resids fwd (sorted_like l order) v = Ok (map (fun p => p_y p - gam - f (p_t p)) (pick pts order)).
Proof.
  intros [Hx [Hy He]] F G. unfold gp_resids, sorted_like. cbn [l_x l_y l_gidx]. rewrite G. cbn [bind]. rewrite F. cbn [bind].
  rewrite Hx, Hy, !pick_map, !map_length, Nat.eqb_refl. now rewrite map2_minus.
Qed.

Lemma cel_call_is (fwd : forward) f l hn order pts v h gam jit call : cel_data l pts -> (forall xs, fwd v xs = Ok (map f xs)) ->
  vget v (l_gidx l) = Ok gam -> vget v (l_jidx l) = Ok jit ->
  cel_call fwd (cel_init l hn order) v h = Ok call ->
  s_t call = map p_t pts /\ s_diag call = map (fun p => p_e p ^ 2 + jit ^ 2) (pick pts order) /\
  s_rhs call = map (fun p => p_y p - gam - f (p_t p)) (pick pts order).
Proof.
  intros D F G J H. unfold cel_call in H. destruct (update_kernel_params _ _ _) as [k|]; cbn [bind] in H; [|discriminate].
  change (g_like (c_gp (cel_init l hn order))) with (sorted_like l order) in H.
  unfold rv_errorbars in H. change (l_jidx (sorted_like l order)) with (l_jidx l) in H. rewrite J in H. cbn [bind] in H.
  rewrite (cel_resids fwd f l order pts v gam D F G) in H. cbn [bind] in H. injection H as <-.
  destruct D as [Hx [Hy He]]. cbn [s_t s_diag s_rhs c_kx cel_init]. split; [auto|]. split; [|auto].
  change (l_yerr (sorted_like l order)) with (pick (l_yerr l) order). rewrite He, pick_map, !map_map. apply map_ext. intro p.
  unfold sig_quad. cbv beta. rewrite Rmult_1_r, sqrt_sqrt; [reflexivity|]. pose proof (pow2_ge_0 (p_e p)). pose proof (pow2_ge_0 jit). lra.
Qed.

Lemma cel_sorted_aligned (fwd : forward) f l hn order pts v h gam jit call : cel_data l pts -> (forall xs, fwd v xs = Ok (map f xs)) ->
  vget v (l_gidx l) = Ok gam -> vget v (l_jidx l) = Ok jit -> sorting (l_x l) order ->
  StronglySorted Rle (l_x l) ->
  cel_call fwd (cel_init l hn order) v h = Ok call -> aligned pts jit gam f call.
Proof.
  intros D F G J [P S] S0 H. destruct (cel_call_is _ _ _ _ _ _ _ _ _ _ _ D F G J H) as [H1 [H2 H3]].
  destruct D as [Hx _]. rewrite Hx in *. rewrite map_length in P.
  exists (pick pts order). split; [now apply pick_perm|]. split; [|split; auto].
  rewrite H1, <- pick_map. apply sorted_perm_eq; auto. apply pick_perm. now rewrite map_length.
Qed.

(** predict uses the sorted times throughout *)
Lemma cel_predict_aligned (fwd : forward) f l hn order pts v h gam jit call : cel_data l pts -> (forall xs, fwd v xs = Ok (map f xs)) ->
  vget v (l_gidx l) = Ok gam -> vget v (l_jidx l) = Ok jit -> sorting (l_x l) order ->
  cel_predict_call fwd (cel_init l hn order) v h = Ok call -> aligned pts jit gam f call /\ StronglySorted Rle (s_t call).
Proof.
  intros D F G J [P S] H. unfold cel_predict_call in H. destruct (update_kernel_params _ _ _) as [k|]; cbn [bind] in H; [|discriminate].
  change (g_like (c_gp (cel_init l hn order))) with (sorted_like l order) in H.
  change (l_jidx (sorted_like l order)) with (l_jidx l) in H. rewrite J in H. cbn [bind] in H.
  rewrite (cel_resids fwd f l order pts v gam D F G) in H. cbn [bind] in H. injection H as <-.
  destruct D as [Hx [Hy He]]. split; [|exact S]. exists (pick pts order).
  split; [apply pick_perm; now rewrite Hx, map_length in P|]. cbn [s_t s_diag s_rhs].
  change (l_yerr (sorted_like l order)) with (pick (l_yerr l) order). change (l_x (sorted_like l order)) with (pick (l_x l) order).
  rewrite He, Hx, !pick_map, map_map. auto.
Qed.

(** unsorted data: two observations given in reverse time order *)
Definition cidx : dict nat :=
  [("gamma", 0%nat); ("jit", 1%nat); ("gp_B", 2%nat); ("gp_C", 3%nat); ("gp_L", 4%nat); ("gp_Prot", 5%nat)]%string.
Definition cnames := ["gp_B"; "gp_C"; "gp_L"; "gp_Prot"]%string.
Definition cpts : list point := [mkPt 1 0 1; mkPt 0 0 2].
Definition clike (pts : list point) : rvlike :=
  mkLike (map p_t pts) (map p_y pts) (map p_e pts) "gamma" "jit" 0 1 "" [] [] [] ex_ps0 cidx.
Definition ch : dict (option R) := [("gp_B", Some 1); ("gp_C", Some 1); ("gp_L", Some 1); ("gp_Prot", Some 1)]%string.

Lemma cel_misaligned : exists l pts order v call, cel_data l pts /\ sorting (l_x l) order /\
  cel_call zero_fwd (cel_init l cnames order) v ch = Ok call /\
  vget v (l_gidx l) = Ok 0 /\ vget v (l_jidx l) = Ok 0 /\ ~ aligned pts 0 0 (fun _ => 0) call.
Proof.
  exists (clike cpts), cpts, [1; 0]%nat, (qrow 0 0 1 1 1 1). eexists.
  split; [repeat split|]. split.
  - split; [cbn; apply perm_swap|]. cbn. repeat constructor; lra.
  - split; [reflexivity|]. split; [reflexivity|]. split; [reflexivity|].
    intros [pts' [P [T [D _]]]]. cbn [s_t s_diag] in T, D. cbn in T, D.
    destruct pts' as [|a pts']; [discriminate|]. cbn in T, D. injection T as T1 _. injection D as D1 _.
    assert (In a cpts) as Ha by (eapply Permutation_in; [symmetry; exact P|now left]).
    cbn in Ha. destruct Ha as [<-|[<-|[]]]; cbn in *; [|lra].
    unfold sig_quad in D1. replace (2 ^ 2 + 0 ^ 2) with (2 * 2) in D1 by ring. 
    replace (sqrt (2 * 2) * (sqrt (2 * 2) * 1)) with (sqrt (2 * 2) * sqrt (2 * 2)) in D1 by ring. rewrite sqrt_sqrt in D1; lra.
Qed.
