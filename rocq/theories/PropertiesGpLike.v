(** Property theorems C69: the value of the Gaussian process likelihood. *)
From Coq Require Import Reals String Arith Bool Lia Lra List.
From Verif Require Import Py PyFloat Params Kepler Basis Likelihood Gp GpSpec GpMore LikeSpec LikeDensity CholSpec Cholesky GpLike GpClip.
Import ListNotations.
Open Scope R_scope.

(** * C69 *)
(** With the squared exponential kernel logprob is the log density of the residuals under normal noise with covariance
    amp^2 exp(-(s-t)^2/len^2) plus uncertainty^2 + jitter^2 on the diagonal, and -inf if this has no Cholesky factor. *)
Theorem C69_sqexp_partial : forall la fwd f g v k data gam jit, exact_linalg la -> well_named g v -> kernel_ready g k -> has_data (g_like g) data -> data <> [] ->
  fwd v (l_x (g_like g)) = Ok (map f (l_x (g_like g))) -> vget v (l_gidx (g_like g)) = Ok gam -> vget v (l_jidx (g_like g)) = Ok jit ->
  forall len amp, g_kind g = SqExp -> hyper g v "gp_length" (Some len) -> hyper g v "gp_amp" (Some amp) -> len <> 0 ->
  is_density la fwd f g v k data gam jit amp (fun s t => exp (- (s - t) ^ 2 / len ^ 2)).
Proof. exact sqexp_density. Qed.
Print Assumptions C69_sqexp_partial.

(** With the periodic kernel. *)
Theorem C69_per_partial : forall la fwd f g v k data gam jit, exact_linalg la -> well_named g v -> kernel_ready g k -> has_data (g_like g) data -> data <> [] ->
  fwd v (l_x (g_like g)) = Ok (map f (l_x (g_like g))) -> vget v (l_gidx (g_like g)) = Ok gam -> vget v (l_jidx (g_like g)) = Ok jit ->
  forall len amp per, g_kind g = Per -> hyper g v "gp_length" (Some len) -> hyper g v "gp_amp" (Some amp) -> hyper g v "gp_per" (Some per) -> len <> 0 -> per <> 0 ->
  is_density la fwd f g v k data gam jit amp (fun s t => exp (- sin (PI * (s - t) / per) ^ 2 / (2 * len ^ 2))).
Proof. exact per_density. Qed.
Print Assumptions C69_per_partial.

(** With the quasi-periodic kernel, where neither exponent is cut off at -100. *)
Theorem C69_quasiper_partial : forall la fwd f g v k data gam jit, exact_linalg la -> well_named g v -> kernel_ready g k -> has_data (g_like g) data -> data <> [] ->
  fwd v (l_x (g_like g)) = Ok (map f (l_x (g_like g))) -> vget v (l_gidx (g_like g)) = Ok gam -> vget v (l_jidx (g_like g)) = Ok jit ->
  forall pl amp per el, g_kind g = QuasiPer -> hyper g v "gp_perlength" (Some pl) -> hyper g v "gp_amp" (Some amp) -> hyper g v "gp_per" (Some per) -> hyper g v "gp_explength" (Some el) ->
  0 < pl -> 0 < amp -> 0 < per -> 0 < el -> (forall p q, In p data -> In q data -> (d_t p - d_t q) ^ 2 <= 100 * el ^ 2) -> 1 <= 200 * pl ^ 2 ->
  is_density la fwd f g v k data gam jit amp (fun s t => exp (- (s - t) ^ 2 / el ^ 2) * exp (- sin (PI * (s - t) / per) ^ 2 / (2 * pl ^ 2))).
Proof. exact quasi_density. Qed.
Print Assumptions C69_quasiper_partial.

(** With the quasi-periodic kernel as it is computed, each exponent cut off at -100, for all positive hyper-parameters:
    the log density, or -inf if there is no factor; there is one if every uncertainty exceeds the cut-off; and the
    kernel with the cut-off is within 2 e^-100 of the one without. *)
Theorem C69_quasiper_clipped : forall la fwd f g v k data gam jit, exact_linalg la -> well_named g v -> kernel_ready g k -> has_data (g_like g) data -> data <> [] ->
  fwd v (l_x (g_like g)) = Ok (map f (l_x (g_like g))) -> vget v (l_gidx (g_like g)) = Ok gam -> vget v (l_jidx (g_like g)) = Ok jit ->
  forall pl amp per el, g_kind g = QuasiPer -> hyper g v "gp_perlength" (Some pl) -> hyper g v "gp_amp" (Some amp) -> hyper g v "gp_per" (Some per) -> hyper g v "gp_explength" (Some el) ->
  0 < pl -> 0 < amp -> 0 < per -> 0 < el ->
  let c := fun s t => exp (Rmax (- (s - t) ^ 2 / el ^ 2) (-100)) * exp (Rmax (- sin (PI * (s - t) / per) ^ 2 / (2 * pl ^ 2)) (-100)) in
  (forall L z, factor (length data) (data_cov amp c jit data) L -> solves (length data) L z (data_resid f gam data) ->
     snd (gp_logprob fwd la g v k) = Ok (Fin (mvn (length data) L z))) /\
  ((forall L, ~ factor (length data) (data_cov amp c jit data) L) -> snd (gp_logprob fwd la g v k) = Ok NInf) /\
  ((forall p, In p data -> 2 * INR (length data) * amp ^ 2 * exp (-100) < var_of jit p) ->
     exists L z, factor (length data) (data_cov amp c jit data) L /\ solves (length data) L z (data_resid f gam data)) /\
  (forall s t, Rabs (c s t - exp (- (s - t) ^ 2 / el ^ 2) * exp (- sin (PI * (s - t) / per) ^ 2 / (2 * pl ^ 2))) <= 2 * exp (-100)).
Proof. exact quasi_clipped. Qed.
Print Assumptions C69_quasiper_clipped.

(** two points a thousand days apart, with a decay of one day *)
Example C69_quasiper_clipped_ex : exists x, snd (gp_logprob GpMore.zero_fwd ref_la (xq_gp 1000 1) (xq_row 0 0 1 (1 / 3) 10 1) (xq_k 1000)) = Ok (Fin x).
Proof. exact xq_value. Qed.

(** With a hyper-parameter of the quasi-periodic kernel that is negative or nan: an error, never a number. *)
Theorem C69_quasiper_refused : forall la fwd f g v k data gam jit, well_named g v -> kernel_ready g k -> has_data (g_like g) data ->
  fwd v (l_x (g_like g)) = Ok (map f (l_x (g_like g))) -> vget v (l_gidx (g_like g)) = Ok gam -> vget v (l_jidx (g_like g)) = Ok jit ->
  g_kind g = QuasiPer ->
  (exists s x, In s ["gp_perlength"; "gp_amp"; "gp_per"; "gp_explength"]%string /\ hyper g v s x /\ match x with Some x => x < 0 | None => True end) ->
  (forall s, In s ["gp_perlength"; "gp_amp"; "gp_per"; "gp_explength"]%string -> exists x, hyper g v s x) ->
  snd (gp_logprob fwd la g v k) = Err ValueError.
Proof. exact quasi_refused. Qed.
Print Assumptions C69_quasiper_refused.

Example C69_quasiper_refused_ex : snd (gp_logprob GpMore.zero_fwd ref_la (xq_gp 3 1) (xq_row 0 0 1 2 (-10) 1) (xq_k 3)) = Err ValueError.
Proof. exact xq_refused. Qed.

(** two points one day apart; and the same time twice without uncertainty, where there is no factor *)
Example C69_sqexp_ex : exact_linalg ref_la /\
  (let g := xg_gp 1 1 in let v := srow 0 1 2 3 in well_named g v /\ kernel_ready g (xg_k 1) /\ has_data (g_like g) (xg_data 1 1) /\
     zero_fwd v (l_x (g_like g)) = Ok (map (fun _ => 0) (l_x (g_like g))) /\ vget v (l_gidx (g_like g)) = Ok 0 /\ vget v (l_jidx (g_like g)) = Ok 1 /\
     hyper g v "gp_length" (Some 2) /\ hyper g v "gp_amp" (Some 3)) /\
  snd (gp_logprob zero_fwd ref_la (xg_gp 0 0) (srow 0 0 1 1) (xg_k 0)) = Ok NInf.
Proof.
  split; [exact ref_exact|]. split; [apply xg_hyps|]. destruct (xg_hyps 0 0 0 0 1 1) as (A1 & A2 & A3 & A4 & A5 & A6 & A7 & A8).
  destruct (C69_sqexp_partial _ _ _ _ _ _ (xg_data 0 0) 0 0 ref_exact A1 A2 A3 ltac:(discriminate) A4 A5 A6 1 1 eq_refl A7 A8 ltac:(lra)) as (_ & _ & H). apply H. exact xg_singular.
Qed.

(** Without correlated noise it is the likelihood of independent normal errors. *)
Theorem C69_white : forall la fwd f g v k data gam jit, exact_linalg la -> well_named g v -> kernel_ready g k -> has_data (g_like g) data -> data <> [] ->
  fwd v (l_x (g_like g)) = Ok (map f (l_x (g_like g))) -> vget v (l_gidx (g_like g)) = Ok gam -> vget v (l_jidx (g_like g)) = Ok jit ->
  forall len, g_kind g = SqExp -> hyper g v "gp_length" (Some len) -> hyper g v "gp_amp" (Some 0) -> len <> 0 -> (forall p, In p data -> 0 < var_of jit p) ->
  snd (gp_logprob fwd la g v k) = Ok (Fin (gauss_loglike f gam jit data)).
Proof. exact sqexp_white. Qed.
Print Assumptions C69_white.

Example C69_white_ex : snd (gp_logprob zero_fwd ref_la (xg_gp 3 1) (srow 5 1 2 0) (xg_k 3)) = Ok (Fin (gauss_loglike (fun _ => 0) 5 1 (xg_data 3 1))).
Proof.
  destruct (xg_hyps 3 1 5 1 2 0) as (A1 & A2 & A3 & A4 & A5 & A6 & A7 & A8).
  apply (C69_white _ _ _ _ _ _ _ _ _ ref_exact A1 A2 A3 ltac:(discriminate) A4 A5 A6 2 eq_refl A7 A8 ltac:(lra)). intros p [<-|[<-|[]]]; unfold var_of; cbn; lra.
Qed.

(** A covariance matrix that is not finite also gives -inf. *)
Theorem C69_nan : forall la fwd f g v k data gam jit, exact_linalg la -> well_named g v -> kernel_ready g k -> has_data (g_like g) data -> data <> [] ->
  fwd v (l_x (g_like g)) = Ok (map f (l_x (g_like g))) -> vget v (l_gidx (g_like g)) = Ok gam -> vget v (l_jidx (g_like g)) = Ok jit ->
  forall amp, g_kind g = SqExp -> hyper g v "gp_length" (Some 0) -> hyper g v "gp_amp" (Some amp) -> snd (gp_logprob fwd la g v k) = Ok NInf.
Proof. exact sqexp_nan. Qed.
Print Assumptions C69_nan.

Example C69_nan_ex : snd (gp_logprob zero_fwd ref_la (xg_gp 3 1) (srow 5 1 0 2) (xg_k 3)) = Ok NInf.
Proof.
  destruct (xg_hyps 3 1 5 1 0 2) as (A1 & A2 & A3 & A4 & A5 & A6 & A7 & A8). exact (C69_nan _ _ _ _ _ _ _ _ _ ref_exact A1 A2 A3 ltac:(discriminate) A4 A5 A6 2 eq_refl A7 A8).
Qed.

(** The factor is the only one, and a symmetric matrix has it iff it is positive definite. *)
Theorem C69_factor : forall n a, symmetric n a ->
  ((exists L, factor n a L) <-> pd n a) /\ forall L L', factor n a L -> factor n a L' -> forall i j, (i < n)%nat -> (j < n)%nat -> L i j = L' i j.
Proof. exact factor_thm. Qed.
Print Assumptions C69_factor.

Example C69_factor_ex : symmetric 2 (fun i j => if Nat.eqb i j then 2 else 1) /\ factor 1 (fun _ _ => 4) (fun _ _ => 2).
Proof.
  split; [intros i j _ _; rewrite Nat.eqb_sym; reflexivity|]. split; [split; [intros; lra|intros; lia]|]. intros i j Hi Hj. unfold Sum, rsum. cbn. lra.
Qed.
