(** Property theorems C22-C28 (and C18 for posteriors): priors and posterior. *)
From Coq Require Import Reals String List ZArith Lra Lia Permutation Bool.
From Verif Require Import Py PyFloat Params ParamsProofs ParamsSpec VectorProofs Kepler KeplerSpec Basis RVModel Likelihood LikeSpec
  LikeProofs LikeHist LikeDensity LikeBuild ExLike Prior PriorSpec PriorProofs PriorThms PriorPhys Posterior PostProofs PostHist PostRefute PostTight ExPost.
From Coq Require Import List.
Import ListNotations.
Open Scope R_scope.


(** * C18 *)
(** Full claim: for every posterior.  It fails for a prior attached to a
    marginalised offset (C18_linear_gamma_prior_refuted); [prior_admissible] excludes
    that, eclipse priors on planets that do not exist, and user-written priors
    that look at such an offset. *)
Theorem C18_posterior_history_partial : forall h ps b names vec ds h1 ps1 vec1 ls use_c fuel tb c0 cs vals priors,
  layout (ps_num ps) b names (dkeys (ps_items ps)) -> b_num (ps_basis ps) = ps_num ps ->
  vector_init h ps = Ok vec -> build_likes h ps vec ds = Ok (h1, ps1, vec1, ls) ->
  let v0 := v_vector vec1 in
  cache_fresh c0 v0 ->
  (forall p, In p priors -> prior_admissible (ps_num ps) ls v0 (v_indices vec1) p) ->
  let fwd := rv_forward use_c fuel ps1 (v_indices vec1) (v_names vec1) tb in
  let ms := map (rv_member fwd) ls in
  let post := post_logprob (ps_basis ps1) (v_indices vec1) (comp_logprob ms) priors in
  snd (logprob_array post (run post (comp_residuals ms) (v0, c0) cs) vals) = snd (logprob_array post (v0, c0) vals) /\
  forall l, In l ls ->
    let post := post_logprob (ps_basis ps1) (v_indices vec1) (rv_logprob fwd l) priors in
    snd (logprob_array post (run post (rv_residuals fwd l) (v0, c0) cs) vals) = snd (logprob_array post (v0, c0) vals).
Proof. exact posterior_history. Qed.
Print Assumptions C18_posterior_history_partial.

Example C18_posterior_history_ex : forall x, exists vec h1 ps1 vec1 ls,
  layout (ps_num exl_ps) "per tp e w k" ["per"; "tp"; "e"; "w"; "k"]%string (dkeys (ps_items exl_ps)) /\
  b_num (ps_basis exl_ps) = ps_num exl_ps /\ vector_init (exl_h x) exl_ps = Ok vec /\
  build_likes (exl_h x) exl_ps vec (exl_data x ["temp"%string]) = Ok (h1, ps1, vec1, ls) /\ cache_fresh None (v_vector vec1) /\
  forall p, In p [PGaussian "gamma_b" 0 1; PEcc [1%nat] [1]; PPosK 1; PSecEcl 1 3 1; PHard "jit_a" (Fin 0) (Fin 10)] ->
    prior_admissible (ps_num exl_ps) ls (v_vector vec1) (v_indices vec1) p.
Proof. exact ex_admissible. Qed.

Theorem C18_linear_gamma_prior_refuted : exists vals, let st := (ex_rows 0, None) in
    snd (logprob_array ex_post (run ex_post (rv_residuals ex_fwd ex_like) st [CallLogprobArray vals]) vals) <>
    snd (logprob_array ex_post st vals).
Proof. exact linear_gamma_prior_history. Qed.
Print Assumptions C18_linear_gamma_prior_refuted.

(** * C22 *)
(** log_density_of: the prior returns d(x) at parameter value x; proper_density: d is
    finite on the interval, -inf outside, and exp d integrates to 1. *)
Theorem C22_hard_bounds : forall s a b, a < b ->
  exists d, log_density_of (PHard s (Fin a) (Fin b)) s d /\ proper_density d (fun x => a < x < b).
Proof. exact hard_density. Qed.
Print Assumptions C22_hard_bounds.

Example C22_hard_bounds_ex : -3 < 5. Proof. lra. Qed.

Theorem C22_jeffreys : forall s a b, 0 < a -> a < b ->
  exists p d, jeffreys_init s a b = Ok p /\ log_density_of p s d /\ proper_density d (fun x => a <= x <= b).
Proof. exact jeffreys_density. Qed.
Print Assumptions C22_jeffreys.

Example C22_jeffreys_ex : 0 < 1 / 2 /\ 1 / 2 < 30. Proof. lra. Qed.

Theorem C22_modified_jeffreys : forall s a b x0, x0 < a -> a < b ->
  exists p d, mod_jeffreys_init s a b x0 = Ok p /\ log_density_of p s d /\ proper_density d (fun x => a <= x <= b).
Proof. exact mod_jeffreys_density. Qed.
Print Assumptions C22_modified_jeffreys.

Example C22_modified_jeffreys_ex : -1 < 0 /\ 0 < 30. Proof. lra. Qed.

Theorem C22_gaussian : forall s mu sigma, 0 < sigma ->
  exists d, log_density_of (PGaussian s mu sigma) s d /\ proper_density d (fun _ => True).
Proof. exact gauss_density. Qed.
Print Assumptions C22_gaussian.

Example C22_gaussian_ex : 0 < 3 / 2. Proof. lra. Qed.

(** ... with mean mu and standard deviation sigma *)
Theorem C22_gaussian_shape : forall s mu sigma,
  0 < sigma -> forall d, log_density_of (PGaussian s mu sigma) s d -> forall x,
  edens (d x) = / sqrt (2 * PI * sigma ^ 2) * exp (- ((x - mu) ^ 2 / (2 * sigma ^ 2))).
Proof. exact gauss_prior_shape. Qed.
Print Assumptions C22_gaussian_shape.

(** * C23 *)
(** With the density of C22: into the support, increasing, mass u below. *)
Theorem C23_hard_bounds : forall s a b, a < b ->
  exists d, log_density_of (PHard s (Fin a) (Fin b)) s d /\ proper_density d (fun x => a < x < b) /\
    forall ppf, quantile_map (transform ppf (PHard s (Fin a) (Fin b))) d (fun x => a < x < b).
Proof. exact hard_prior. Qed.
Print Assumptions C23_hard_bounds.

Example C23_hard_bounds_ex : forall ppf, transform ppf (PHard "k1" (Fin 1) (Fin 5)) (1 / 4) = Ok (1 + 1 / 4 * (5 - 1)).
Proof. reflexivity. Qed.

Theorem C23_jeffreys : forall s a b,
  0 < a -> a < b ->
  exists p d, jeffreys_init s a b = Ok p /\ log_density_of p s d /\ proper_density d (fun x => a <= x <= b) /\
    forall ppf, quantile_map (transform ppf p) d (fun x => a <= x <= b).
Proof. exact jeffreys_prior. Qed.
Print Assumptions C23_jeffreys.

Example C23_jeffreys_ex : 0 < 1 / 2 /\ 1 / 2 < 30. Proof. lra. Qed.

Theorem C23_modified_jeffreys : forall s a b x0,
  x0 < a -> a < b ->
  exists p d, mod_jeffreys_init s a b x0 = Ok p /\ log_density_of p s d /\ proper_density d (fun x => a <= x <= b) /\
    forall ppf, quantile_map (transform ppf p) d (fun x => a <= x <= b).
Proof. exact mod_jeffreys_prior. Qed.
Print Assumptions C23_modified_jeffreys.

Example C23_modified_jeffreys_ex : -1 < 0 /\ 0 < 30. Proof. lra. Qed.

(** [is_ppf]: scipy's norm.ppf is a quantile function of the standard normal; one exists. *)
Theorem C23_gaussian : forall s mu sigma,
  0 < sigma ->
  exists d, log_density_of (PGaussian s mu sigma) s d /\ proper_density d (fun _ => True) /\
    forall ppf, is_ppf ppf -> quantile_map (transform ppf (PGaussian s mu sigma)) d (fun _ => True).
Proof. exact gauss_prior. Qed.
Print Assumptions C23_gaussian.

Example C23_gaussian_ex : exists ppf, is_ppf ppf. Proof. exact ppf_exists. Qed.

(** * C24 *)
(** In every basis.  [planet_holds]: the rows hold the basis parameters of a planet
    with elements [E n]; a negative eccentricity can be expressed only when e itself
    is a parameter. *)
Theorem C24_eccentricity : forall finite pb b names idx v pl lims (E : nat -> elements),
  In (b, names) FIT_BASES -> b_name pb = b -> length lims = length pl -> (forall u, In u lims -> 0 < u) ->
  (forall n, In n pl -> planet_holds idx v names n (E n)) ->
  (forall n, In n pl -> In "e" names \/ 0 <= el_e (E n)) ->
  let bad := exists n u, In (n, u) (combine pl lims) /\ ~ (0 <= el_e (E n) <= u) in
  (bad -> prior_eval finite pb idx v (PEcc pl lims) = Ok (if finite then Fin (- 10 ^ 100) else NInf)) /\
  (~ bad -> prior_eval finite pb idx v (PEcc pl lims) = Ok (Fin (- rsum (map ln lims)))).
Proof. exact ecc_prior_spec. Qed.
Print Assumptions C24_eccentricity.

Example C24_eccentricity_ex : exists idx v,
  In ("per tc secosw sesinw k", ["per"; "tc"; "secosw"; "sesinw"; "k"]) FIT_BASES /\
  planet_holds idx v ["per"; "tc"; "secosw"; "sesinw"; "k"] 1 (mkEl 10 2 (1 / 4) 1 30).
Proof. exact ex_ecc_planet. Qed.

(** Full claim: in every basis.  It holds when k is a parameter; for logk see
    C24_positive_k_logk_refuted. *)
Theorem C24_positive_k_partial : forall finite pb idx v num (K : nat -> R),
  (forall n, (1 <= n <= num)%nat -> row_holds idx v (key "k" n) (K n)) ->
  let bad := exists n, (1 <= n <= num)%nat /\ K n < 0 in
  (bad -> prior_eval finite pb idx v (PPosK num) = Ok (if finite then Fin (- 10 ^ 100) else NInf)) /\
  (~ bad -> prior_eval finite pb idx v (PPosK num) = Ok (Fin 0)).
Proof. exact posk_spec. Qed.
Print Assumptions C24_positive_k_partial.

Example C24_positive_k_ex : forall n, (1 <= n <= 1)%nat ->
  row_holds [("k1"%string, 0%nat)] [mkRow (Some 3) true None false] (key "k" n) 3.
Proof. intros n Hn. assert (n = 1%nat) as -> by lia. exists 0%nat. eexists. repeat split; reflexivity. Qed.

(** What happens with logk: K < 1 is rejected. *)
Theorem C24_positive_k_logk_partial : forall finite pb num keys v (K : nat -> R),
  (forall n, (1 <= n <= num)%nat -> 0 < K n /\ row_holds (init_index_dict num keys) v (key "logk" n) (ln (K n))) ->
  let bad := exists n, (1 <= n <= num)%nat /\ K n < 1 in
  (bad -> prior_eval finite pb (init_index_dict num keys) v (PPosK num) = Ok (if finite then Fin (- 10 ^ 100) else NInf)) /\
  (~ bad -> prior_eval finite pb (init_index_dict num keys) v (PPosK num) = Ok (Fin 0)).
Proof. exact posk_logk_spec. Qed.
Print Assumptions C24_positive_k_logk_partial.

Example C24_positive_k_logk_ex : 0 < 2 /\ row_holds (init_index_dict 1 ["logk1"%string]) (repeat (mkRow (Some (ln 2)) true None false) 7) (key "logk" 1) (ln 2).
Proof. split; [lra|]. exists 4%nat. eexists. repeat split; reflexivity. Qed.

(** A planet with K = 1/2 gets -inf. *)
Theorem C24_positive_k_logk_refuted : exists names v el,
  In ("per tc secosw sesinw logk", names) FIT_BASES /\ el_k el = 1 / 2 /\
  let keys := default_keys 1 names in
  planet_holds (init_index_dict 1 keys) v names 1 el /\
  prior_call (basis_init "per tc secosw sesinw logk" 1) (init_index_dict 1 keys) v (PPosK 1) = Ok NInf.
Proof. exact posk_logk_rejects. Qed.
Print Assumptions C24_positive_k_logk_refuted.

(** * C25 *)
Theorem C25_sum : forall pb idx (lik : list row -> list row * res ext) ps v rs v' l,
  Forall2 (fun p r => prior_call pb idx v p = Ok (Fin r)) ps rs -> lik v = (v', Ok l) ->
  post_logprob pb idx lik ps v = (v', Ok (ext_add (Fin (rsum rs)) l)).
Proof. exact post_sum. Qed.
Print Assumptions C25_sum.

Example C25_sum_ex : forall pb, Forall2 (fun p r => prior_call pb [("k1"%string, 0%nat)] [mkRow (Some 3) true None false] p = Ok (Fin r))
  [PHard "k1" (Fin 1) PInf; PUser ["k1"%string] (fun xs => Ok (Fin (hd 0 xs))) None] [0; 3].
Proof. exact ex_two_priors. Qed.

(** [lik] is arbitrary, so it is not called; the rows are unchanged. *)
Theorem C25_rejects : forall pb idx (lik : list row -> list row * res ext) ps v xs,
  Forall2 (fun p x => prior_call pb idx v p = Ok x) ps xs ->
  (forall x, In x xs -> x = NInf \/ exists r, x = Fin r) -> In NInf xs ->
  post_logprob pb idx lik ps v = (v, Ok NInf).
Proof. exact post_ninf. Qed.
Print Assumptions C25_rejects.

Example C25_rejects_ex : forall pb, Forall2 (fun p r => prior_call pb [("k1"%string, 0%nat)] [mkRow (Some (-3)) true None false] p = Ok r)
  [PHard "k1" NInf PInf; PPosK 1] [Fin 0; NInf].
Proof. exact ex_reject. Qed.

Theorem C25_order : forall pb idx (lik : list row -> list row * res ext) ps ps' v xs, Permutation ps ps' -> Forall2 (fun p x => prior_call pb idx v p = Ok x) ps xs ->
  post_logprob pb idx lik ps v = post_logprob pb idx lik ps' v.
Proof. exact post_perm. Qed.
Print Assumptions C25_order.

Example C25_order_ex : Permutation [PPosK 1; PHard "k1" (Fin 1) PInf] [PHard "k1" (Fin 1) PInf; PPosK 1]. Proof. apply perm_swap. Qed.

(** * C26 *)
(** exactly one transformable prior by name for each free parameter, and no
    transformable prior on another one *)
Theorem C26_check : forall vary ps, check_proper_priors vary ps = Ok tt <->
  (forall s, In s vary -> exists p, filter (fun p => attached s p && transformable p) ps = [p]) /\
  (forall p s, In p ps -> prior_param p = Some s -> prior_extra p = false -> In s vary).
Proof. exact check_iff. Qed.
Print Assumptions C26_check.

Example C26_check_ex :
  check_proper_priors ["per1"; "k1"]%string [PHard "k1" (Fin 0) PInf; PEcc [1%nat] [1]; PGaussian "per1" 3 1] = Ok tt /\
  check_proper_priors ["per1"; "k1"]%string [PHard "k1" (Fin 0) PInf] = Err ValueError /\
  check_proper_priors ["k1"]%string [PHard "k1" (Fin 0) PInf; PGaussian "k1" 3 1] = Err ValueError /\
  check_proper_priors ["k1"]%string [PHard "k1" (Fin 0) PInf; PGaussian "per1" 3 1] = Err ValueError.
Proof. repeat split; reflexivity. Qed.

Theorem C26_otherwise_raises : forall vary ps,
  check_proper_priors vary ps = Ok tt \/ check_proper_priors vary ps = Err ValueError.
Proof. exact check_raises. Qed.
Print Assumptions C26_otherwise_raises.

(** * C27 *)
Theorem C27_transform : forall ppf ps vary inplace u, check_proper_priors vary ps = Ok tt -> length u = length vary ->
  (forall i s p z, nth_error vary i = Some s -> prior_for ps s p -> nth_error u i = Some z -> is_ok (transform ppf p z)) ->
  exists x, prior_transform ppf vary ps inplace u = Ok (x, if inplace then x else u) /\ length x = length u /\
    forall i s z, nth_error vary i = Some s -> nth_error u i = Some z ->
      exists p y, prior_for ps s p /\ (forall q, prior_for ps s q -> q = p) /\
                  transform ppf p z = Ok y /\ nth_error x i = Some y.
Proof. exact transform_ok. Qed.
Print Assumptions C27_transform.

Example C27_transform_ex : forall ppf u1 u2,
  check_proper_priors ["per1"; "k1"]%string [PHard "k1" (Fin 0) (Fin 8); PEcc [1%nat] [1]; PGaussian "per1" 3 2] = Ok tt /\
  prior_transform ppf ["per1"; "k1"]%string [PHard "k1" (Fin 0) (Fin 8); PEcc [1%nat] [1]; PGaussian "per1" 3 2] true [u1; u2] =
    Ok ([3 + 2 * ppf u1; 0 + u2 * (8 - 0)], [3 + 2 * ppf u1; 0 + u2 * (8 - 0)]).
Proof. intros. split; reflexivity. Qed.

(** * C28 *)
(** Full claim: for every set of priors that passes the check.  [splittable]
    excludes priors attached through param_list and extra constraints without the
    keyword finite; see the two refutations. *)
Theorem C28_factorisation_partial : forall pb idx (lik : list row -> list row * res ext) ps v v' l rs,
  (forall p, In p ps -> splittable pb idx v p) ->
  Forall2 (fun p r => prior_call pb idx v p = Ok (Fin r)) ps rs -> lik v = (v', Ok l) ->
  exists ts n, Forall2 (fun p r => prior_call pb idx v p = Ok (Fin r)) (filter sampled ps) ts /\
    ns_loglike pb idx lik ps v = (v', Ok n) /\
    post_logprob pb idx lik ps v = (v', Ok (ext_add n (Fin (rsum ts)))).
Proof. exact ns_factor. Qed.
Print Assumptions C28_factorisation_partial.

Example C28_factorisation_ex : forall pb idx v p, In p [PGaussian "k1" 0 1; PEcc [1%nat] [1]; PPosK 2; PHard "per1" (Fin 1) (Fin 2)] ->
  splittable pb idx v p.
Proof. exact ex_split. Qed.

Theorem C28_outside_is_finite : forall pb idx (lik : list row -> list row * res ext) ps v v' l es,
  Forall2 (fun p r => prior_call_finite pb idx v p = Ok (Fin r)) (filter prior_extra ps) es ->
  lik v = (v', Ok (Fin l)) -> ns_loglike pb idx lik ps v = (v', Ok (Fin (rsum es + l))).
Proof. exact ns_finite. Qed.
Print Assumptions C28_outside_is_finite.

Example C28_outside_is_finite_ex : forall pb, Forall2 (fun p r => prior_call_finite pb [("k1"%string, 0%nat)] [mkRow (Some (-3)) true None false] p = Ok (Fin r))
  (filter prior_extra [PHard "k1" NInf PInf; PPosK 1]) [- 10 ^ 100].
Proof. exact ex_reject_finite. Qed.

(** Whatever the priors answer, the nested sampling likelihood is a number whenever the
    likelihood's own value is. *)
Theorem C28_never_infinite : forall pb idx (lik : list row -> list row * res ext) ps v v' n,
  (forall l, snd (lik v) = Ok l -> exists x, l = Fin x) -> ns_loglike pb idx lik ps v = (v', Ok n) -> exists x, n = Fin x.
Proof. exact ns_never_infinite. Qed.
Print Assumptions C28_never_infinite.

(** An extra constraint answering -inf or nan gives -1e100 and the likelihood is not
    evaluated. *)
Theorem C28_outside : forall pb idx (lik : list row -> list row * res ext) ps v xs,
  Forall2 (fun p r => prior_call_finite pb idx v p = Ok r) (filter prior_extra ps) xs ->
  (exists x, In x xs /\ isfinite x = false) -> ns_loglike pb idx lik ps v = (v, Ok (Fin (- 10 ^ 100))).
Proof. exact ns_outside. Qed.
Print Assumptions C28_outside.

Example C28_outside_ex : forall pb idx lik v, ns_loglike pb idx lik [PCustom None true true (fun _ _ _ => Ok NInf) (fun _ => Ok 0)] v = (v, Ok (Fin (- 10 ^ 100))).
Proof.
  intros. apply (C28_outside pb idx lik _ v [NInf]); [constructor; [reflexivity|constructor]|]. exists NInf. split; [now left|reflexivity].
Qed.

Theorem C28_secondary_eclipse_refuted : exists vary ps,
  check_proper_priors vary ps = Ok tt /\
  forall pb idx lik v, ns_loglike pb idx lik ps v = (v, Err TypeError).
Proof. exact ns_secondary_eclipse. Qed.
Print Assumptions C28_secondary_eclipse_refuted.

Theorem C28_dropped_prior_refuted : exists vary ps idx v, forall pb lik v' l, lik v = (v', Ok (Fin l)) ->
  check_proper_priors vary ps = Ok tt /\
  exists n t, ns_loglike pb idx lik ps v = (v', Ok (Fin n)) /\
    Forall2 (fun p r => prior_call pb idx v p = Ok (Fin r)) (filter sampled ps) [t] /\
    post_logprob pb idx lik ps v <> (v', Ok (Fin (n + t))).
Proof. exact ns_drops_prior. Qed.
Print Assumptions C28_dropped_prior_refuted.
