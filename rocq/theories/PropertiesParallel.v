From Coq Require Import Reals String Ascii Arith ZArith Bool List.
From Verif Require Import Py PyFloat Params ParamsProofs ParamsSpec VectorProofs Kepler Basis RVModel Likelihood LikeSpec LikeProofs LikeHist LikeBuild Prior Posterior PostHist Parallel ParallelSpec ParallelProofs ParallelThms ParallelEx ExLike ExPost.
Import ListNotations.
Open Scope R_scope.

(** * C86 Sampling in one process and in several gives the same chains *)
(** [steady]: the log-probability at a point does not depend on which of the allowed states the
    posterior is in.  Any sampler, any number of ensembles and rounds, any rule between rounds. *)
Theorem C86_same : forall Smp Pos G PS eval where_from one many between raised raised' f I n g ss post post',
  steady eval f I -> I post -> I post' ->
  agrees (snd (sampling Smp Pos G PS eval where_from one many between raised true n g ss post))
         (snd (sampling Smp Pos G PS eval where_from one many between raised' false n g ss post')).
Proof. exact @same_chains. Qed.
Print Assumptions C86_same.

Example C86_same_ex : steady (logprob_array flat) (fun x => snd (logprob_array flat (one_row 7, None) x)) (inv (fun _ => False) (one_row 7)) /\
  inv (fun _ => False) (one_row 7) (one_row 7, None) /\ inv (fun _ => False) (one_row 7) (one_row 3, None).
Proof. exact steady_example. Qed.

(** posteriors over RV likelihoods from the constructors, whatever the rows are when sampling
    starts, if no prior looks at an offset that is marginalised *)
Theorem C86_posterior_partial : forall h ps b names vec ds h1 ps1 vec1 ls use_c fuel tb v0 c0 priors,
  layout (ps_num ps) b names (dkeys (ps_items ps)) -> b_num (ps_basis ps) = ps_num ps ->
  vector_init h ps = Ok vec -> build_likes h ps vec ds = Ok (h1, ps1, vec1, ls) ->
  cache_fresh c0 v0 ->
  (forall p, In p priors -> prior_admissible (ps_num ps) ls v0 (v_indices vec1) p) ->
  let fwd := rv_forward use_c fuel ps1 (v_indices vec1) (v_names vec1) tb in
  let post := post_logprob (ps_basis ps1) (v_indices vec1) (comp_logprob (map (rv_member fwd) ls)) priors in
  forall Smp Pos G where_from one many between raised n g (ss : list Smp),
  agrees (snd (sampling Smp Pos G _ (logprob_array post) where_from one many between raised true n g ss (v0, c0)))
         (snd (sampling Smp Pos G _ (logprob_array post) where_from one many between raised false n g ss (v0, c0))).
Proof. exact same_posterior. Qed.
Print Assumptions C86_posterior_partial.

Example C86_posterior_ex : forall x, exists vec h1 ps1 vec1 ls,
  layout (ps_num exl_ps) "per tp e w k" ["per"; "tp"; "e"; "w"; "k"]%string (dkeys (ps_items exl_ps)) /\
  b_num (ps_basis exl_ps) = ps_num exl_ps /\ vector_init (exl_h x) exl_ps = Ok vec /\
  build_likes (exl_h x) exl_ps vec (exl_data x ["temp"%string]) = Ok (h1, ps1, vec1, ls) /\ cache_fresh None (v_vector vec1) /\
  forall p, In p [PGaussian "gamma_b" 0 1; PEcc [1%nat] [1]; PPosK 1; PSecEcl 1 3 1; PHard "jit_a" (Fin 0) (Fin 10)] ->
    prior_admissible (ps_num exl_ps) ls (v_vector vec1) (v_indices vec1) p.
Proof. exact ex_admissible. Qed.

(** with a prior on a marginalised offset one round of two ensembles gives different chains *)
Theorem C86_prior_refuted :
  ~ agrees (snd (ex_run ParallelEx.ex_post true 1 [[]; []] (ParallelEx.ex_rows 0 0, None)))
           (snd (ex_run ParallelEx.ex_post false 1 [[]; []] (ParallelEx.ex_rows 0 0, None))).
Proof. exact prior_differs. Qed.
Print Assumptions C86_prior_refuted.

(** in several processes the posterior given is left by the first steps of the first round *)
Theorem C86_left : forall Smp Pos G PS eval where_from one many between raised n g ss post,
  nth_error (fst (sampling Smp Pos G PS eval where_from one many between raised false (S n) g ss post)) 0 =
  nth_error (fst (first_steps Smp Pos G PS eval where_from one 0 g (map (fun s => mkObj s 0%nat) ss) [post])) 0.
Proof. exact left_first. Qed.
Print Assumptions C86_left.

(** the posterior given, at 7 before, is not at 7 after any number of rounds, and holds other
    values after sampling in one process than after sampling in several *)
Theorem C86_left_refuted : forall n,
  nth_error (fst (ex_run flat true (S n) [[]; []] (one_row 7, None))) 0 = Some (one_row 1, Some [0%nat]) /\
  nth_error (fst (ex_run flat false (S n) [[]; []] (one_row 7, None))) 0 = Some (one_row 0, Some [0%nat]).
Proof. exact left_example. Qed.
Print Assumptions C86_left_refuted.
