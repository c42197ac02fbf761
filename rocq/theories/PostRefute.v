(** Counterexamples for C18, C21 and C28. *)
From Coq Require Import Reals String Ascii Arith ZArith Bool Lia Lra List.
From Verif Require Import Py PyFloat PyFacts PyFloatFacts Params Kepler Basis Likelihood LikeSpec LikeProofs LikeHist LikeDensity Prior PriorSpec PriorProofs Posterior PostProofs.
Import ListNotations.
Open Scope R_scope.

(** one point of data, y = 1 +- 1, model 0, jitter 1 free, gamma linear, prior on gamma *)
Definition ex_like : rvlike :=
  mkLike [0] [1] [1] "gamma_a" "jit_a" 0 1 "_a" ["_a"] [] [] (mkParams [] (basis_init "per tp e w k" 0) 0 [] None) [("gamma_a", 0%nat); ("jit_a", 1%nat)].
Definition ex_fwd : forward := fun _ t => Ok (map (fun _ => 0) t).
Definition ex_rows (g : R) : list row := [mkRow (Some g) false None true; mkRow (Some 1) true None false].
Definition ex_post := post_logprob (basis_init "per tp e w k" 0) (l_indices ex_like) (rv_logprob ex_fwd ex_like) [PGaussian "gamma_a" 0 1].

Lemma ex_set g c : cache_fresh c (ex_rows g) -> set_vary_params c (ex_rows g) [Some 1] = (ex_rows g, Some [1%nat], Ok tt).
Proof. intro C. unfold set_vary_params. rewrite (refresh_fresh c _ _ C). reflexivity. Qed.

Lemma ex_zmean : zmean (fun _ => 0) 1 [mkDatum 0 1 1] = 1.
Proof. unfold zmean, wsum, var_of. cbn. field. Qed.

Lemma ex_lik g : exists X, rv_logprob ex_fwd ex_like (ex_rows g) = (ex_rows 1, Ok (Fin X)).
Proof.
  destruct (logprob_marginal ex_fwd ex_like (ex_rows g) [mkDatum 0 1 1] (fun _ => 0) (mkRow (Some g) false None true) 1) as [_ ->];
    try reflexivity; try discriminate.
  - split; [|split]; reflexivity.
  - intros p [<-|[]]. unfold var_of. cbn. lra.
  - rewrite ex_zmean. eexists. reflexivity.
Qed.

Lemma ex_lik_same g g' : snd (rv_logprob ex_fwd ex_like (ex_rows g)) = snd (rv_logprob ex_fwd ex_like (ex_rows g')).
Proof.
  destruct (logprob_marginal ex_fwd ex_like (ex_rows g) [mkDatum 0 1 1] (fun _ => 0) (mkRow (Some g) false None true) 1) as [_ ->];
    try reflexivity; try discriminate.
  { split; [|split]; reflexivity. } { intros p [<-|[]]. unfold var_of. cbn. lra. }
  destruct (logprob_marginal ex_fwd ex_like (ex_rows g') [mkDatum 0 1 1] (fun _ => 0) (mkRow (Some g') false None true) 1) as [_ ->];
    try reflexivity; try discriminate.
  { split; [|split]; reflexivity. } { intros p [<-|[]]. unfold var_of. cbn. lra. }
Qed.

Lemma ex_post_value g : exists X, snd (ex_post (ex_rows g)) = Ok (Fin (- (1 / 2) * (g * g) + X)) /\ fst (ex_post (ex_rows g)) = ex_rows 1 /\
  forall g', snd (ex_post (ex_rows g')) = Ok (Fin (- (1 / 2) * (g' * g') + X)).
Proof.
  destruct (ex_lik g) as [X HX].
  assert (forall g', ex_post (ex_rows g') = (ex_rows 1, Ok (Fin (- (1 / 2) * (g' * g') + (- (1 / 2) * ln (1 * 1 * 2 * PI) + X))))) as Q.
  { intro g'. unfold ex_post.
    assert (rv_logprob ex_fwd ex_like (ex_rows g') = (ex_rows 1, Ok (Fin X))) as HX'.
    { destruct (ex_lik g') as [Y HY]. pose proof (ex_lik_same g g') as S. rewrite HX, HY in S. cbn [snd] in S. rewrite HY. congruence. }
    rewrite (post_sum _ _ _ _ _ [- (1 / 2) * (g' * g') - 1 / 2 * ln (1 * 1 * 2 * PI)] (ex_rows 1) (Fin X)); auto.
    - cbn. do 3 f_equal. ring.
    - constructor; [|constructor]. rewrite (gauss_call "gamma_a" 0 1 Rlt_0_1 _ _ _ g').
      + unfold gauss_d. do 2 f_equal. f_equal. f_equal. field.
      + exists 0%nat. eexists. split; [reflexivity|]. split; reflexivity. }
  exists (- (1 / 2) * ln (1 * 1 * 2 * PI) + X). rewrite Q. cbn [fst snd]. repeat split. intro g'. now rewrite Q.
Qed.

Lemma linear_gamma_prior_history :
  exists vals, let st := (ex_rows 0, None) in
    snd (logprob_array ex_post (run ex_post (rv_residuals ex_fwd ex_like) st [CallLogprobArray vals]) vals) <>
    snd (logprob_array ex_post st vals).
Proof.
  exists [Some 1]. cbn zeta. destruct (ex_post_value 0) as (X & H0 & F0 & HG).
  assert (logprob_array ex_post (ex_rows 0, None) [Some 1] = ((ex_rows 1, Some [1%nat]), Ok (Fin (- (1 / 2) * (0 * 0) + X)))) as E0.
  { unfold logprob_array. cbn [fst snd]. rewrite (ex_set 0 None) by (now left). destruct (ex_post (ex_rows 0)) as [a b]. cbn in H0, F0. now subst. }
  unfold run. cbn [fold_left after]. rewrite E0. cbn [fst snd]. unfold logprob_array. cbn [fst snd].
  rewrite (ex_set 1 (Some [1%nat])) by (right; reflexivity).
  pose proof (HG 1) as H1. destruct (ex_post (ex_rows 1)) as [a b]. cbn [snd] in *. subst b. intro E. injection E. intro. lra.
Qed.

(** ** C28: constraints without the finite keyword, priors without a name *)
Lemma ns_secondary_eclipse : exists vary ps,
  check_proper_priors vary ps = Ok tt /\
  forall pb idx lik v, ns_loglike pb idx lik ps v = (v, Err TypeError).
Proof.
  exists ["k1"], [PHard "k1" (Fin 0) (Fin 10); PSecEcl 1 5 (1 / 10)]. split; reflexivity.
Qed.

(** the second prior is on the free parameter too but is attached through
    param_list, so it is in neither factor *)
Lemma ns_drops_prior : exists vary ps idx v, forall pb lik v' l, lik v = (v', Ok (Fin l)) ->
  check_proper_priors vary ps = Ok tt /\
  exists n t, ns_loglike pb idx lik ps v = (v', Ok (Fin n)) /\
    Forall2 (fun p r => prior_call pb idx v p = Ok (Fin r)) (filter sampled ps) [t] /\
    post_logprob pb idx lik ps v <> (v', Ok (Fin (n + t))).
Proof.
  exists ["k1"], [PHard "k1" (Fin 0) (Fin 1); PUser ["k1"] (fun xs => Ok (Fin (- hd 0 xs))) (Some (fun u => Ok u))],
    [("k1", 0%nat)], [mkRow (Some (1 / 2)) true None false].
  intros pb lik v' l HL. split; [reflexivity|].
  set (v := [mkRow (Some (1 / 2)) true None false]) in *.
  assert (row_holds [("k1", 0%nat)] v "k1" (1 / 2)) as HR by (exists 0%nat; eexists; repeat split; reflexivity).
  assert (prior_call pb [("k1", 0%nat)] v (PHard "k1" (Fin 0) (Fin 1)) = Ok (Fin (- ln (1 - 0)))) as H1.
  { rewrite (hard_call "k1" 0 1 Rlt_0_1 pb _ _ (1 / 2) HR). now rewrite hard_in by lra. }
  assert (prior_call pb [("k1", 0%nat)] v (PUser ["k1"] (fun xs => Ok (Fin (- hd 0 xs))) (Some (fun u => Ok u))) = Ok (Fin (- (1 / 2)))) as H2 by reflexivity.
  exists (0 + l), (- ln (1 - 0)). split; [|split].
  - rewrite (ns_finite pb _ lik _ v v' l []); auto. constructor.
  - cbn [filter sampled prior_param transformable prior_extra negb]. constructor; [exact H1|constructor].
  - rewrite (post_sum pb _ lik _ v [- ln (1 - 0); - (1 / 2)] v' (Fin l)); auto.
    cbn. intro E. injection E. lra.
Qed.

(** Posterior.aic never returns *)
Lemma post_aic_raises {S} (like_aic : S -> S * res ext) s x : snd (like_aic s) = Ok x ->
  snd (post_aic like_aic s) = Err TypeError.
Proof. unfold post_aic. destruct (like_aic s). cbn. now intros ->. Qed.
