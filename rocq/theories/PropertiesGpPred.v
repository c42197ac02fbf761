(** Property theorems C70: the prediction of the Gaussian process. *)
From Coq Require Import Reals String Arith Bool Lia Lra List.
From Verif Require Import Py PyFloat Params Kepler Basis Likelihood Gp GpSpec GpMore LikeSpec LikeDensity CholSpec Cholesky GpLike PredSpec GpResid GpPred GpClip GpPredClip.
Import ListNotations.
Open Scope R_scope.

(** * C70 *)
(** With the squared exponential kernel predict gives, for every time, the linear combination of the residuals that estimates
    the signal with least expected square error, and the root of that error; it raises LinAlgError if the covariance has no
    Cholesky factor. *)
Theorem C70_sqexp_partial : forall la fwd f g v k data gam jit xp, exact_predict la -> well_named g v -> kernel_ready g k -> has_data (g_like g) data -> data <> [] -> xp <> [] ->
  fwd v (l_x (g_like g)) = Ok (map f (l_x (g_like g))) -> vget v (l_gidx (g_like g)) = Ok gam -> vget v (l_jidx (g_like g)) = Ok jit ->
  forall len amp, g_kind g = SqExp -> hyper g v "gp_length" (Some len) -> hyper g v "gp_amp" (Some amp) -> len <> 0 ->
  predicts la fwd f g v k data gam jit amp (fun s t => exp (- (s - t) ^ 2 / len ^ 2)) xp.
Proof. exact sqexp_predicts. Qed.
Print Assumptions C70_sqexp_partial.

(** With the periodic kernel. *)
Theorem C70_per_partial : forall la fwd f g v k data gam jit xp, exact_predict la -> well_named g v -> kernel_ready g k -> has_data (g_like g) data -> data <> [] -> xp <> [] ->
  fwd v (l_x (g_like g)) = Ok (map f (l_x (g_like g))) -> vget v (l_gidx (g_like g)) = Ok gam -> vget v (l_jidx (g_like g)) = Ok jit ->
  forall len amp per, g_kind g = Per -> hyper g v "gp_length" (Some len) -> hyper g v "gp_amp" (Some amp) -> hyper g v "gp_per" (Some per) -> len <> 0 -> per <> 0 ->
  predicts la fwd f g v k data gam jit amp (fun s t => exp (- sin (PI * (s - t) / per) ^ 2 / (2 * len ^ 2))) xp.
Proof. exact per_predicts. Qed.
Print Assumptions C70_per_partial.

(** With the quasi-periodic kernel, where neither exponent is cut off at -100. *)
Theorem C70_quasiper_partial : forall la fwd f g v k data gam jit xp, exact_predict la -> well_named g v -> kernel_ready g k -> has_data (g_like g) data -> data <> [] -> xp <> [] ->
  fwd v (l_x (g_like g)) = Ok (map f (l_x (g_like g))) -> vget v (l_gidx (g_like g)) = Ok gam -> vget v (l_jidx (g_like g)) = Ok jit ->
  forall pl amp per el, g_kind g = QuasiPer -> hyper g v "gp_perlength" (Some pl) -> hyper g v "gp_amp" (Some amp) -> hyper g v "gp_per" (Some per) -> hyper g v "gp_explength" (Some el) ->
  0 < pl -> 0 < amp -> 0 < per -> 0 < el -> (forall p q, In p data -> In q data -> (d_t p - d_t q) ^ 2 <= 100 * el ^ 2) ->
  (forall x p, In x xp -> In p data -> (x - d_t p) ^ 2 <= 100 * el ^ 2) -> 1 <= 200 * pl ^ 2 ->
  predicts la fwd f g v k data gam jit amp (fun s t => exp (- (s - t) ^ 2 / el ^ 2) * exp (- sin (PI * (s - t) / per) ^ 2 / (2 * pl ^ 2))) xp.
Proof. exact quasi_predicts. Qed.
Print Assumptions C70_quasiper_partial.

(** With the quasi-periodic kernel as it is computed, each exponent cut off at -100, for all positive hyper-parameters and
    times: the linear estimate of least error under that kernel, and the root of the error; nan where the error is
    negative (the kernel with the cut-off need not be a covariance); LinAlgError if there is no factor; and there is one if
    every uncertainty exceeds the cut-off. *)
Theorem C70_quasiper_clipped : forall la fwd f g v k data gam jit xp, exact_predict la -> well_named g v -> kernel_ready g k -> has_data (g_like g) data -> data <> [] -> xp <> [] ->
  fwd v (l_x (g_like g)) = Ok (map f (l_x (g_like g))) -> vget v (l_gidx (g_like g)) = Ok gam -> vget v (l_jidx (g_like g)) = Ok jit ->
  forall pl amp per el, g_kind g = QuasiPer -> hyper g v "gp_perlength" (Some pl) -> hyper g v "gp_amp" (Some amp) -> hyper g v "gp_per" (Some per) -> hyper g v "gp_explength" (Some el) ->
  0 < pl -> 0 < amp -> 0 < per -> 0 < el ->
  let c := fun s t => exp (Rmax (- (s - t) ^ 2 / el ^ 2) (-100)) * exp (Rmax (- sin (PI * (s - t) / per) ^ 2 / (2 * pl ^ 2)) (-100)) in
  ((exists L, factor (length data) (data_cov amp c jit data) L) -> exists mu sd, snd (gp_predict fwd la g v k xp) = Ok (map Fin mu, sd) /\ length mu = length xp /\ length sd = length xp /\
     forall i x m s, nth_error xp i = Some x -> nth_error mu i = Some m -> nth_error sd i = Some s ->
       exists w, (forall w', pred_err amp c jit data x w <= pred_err amp c jit data x w') /\ m = Sum (length data) (fun j => w j * data_resid f gam data j) /\
         (0 <= pred_err amp c jit data x w -> exists r, s = Fin r /\ 0 <= r /\ r ^ 2 = pred_err amp c jit data x w) /\
         (pred_err amp c jit data x w < 0 -> s = NaN)) /\
  ((forall L, ~ factor (length data) (data_cov amp c jit data) L) -> snd (gp_predict fwd la g v k xp) = Err LinAlgError) /\
  ((forall p, In p data -> 2 * INR (length data) * amp ^ 2 * exp (-100) < var_of jit p) -> exists L, factor (length data) (data_cov amp c jit data) L).
Proof. exact quasi_predicts_clipped. Qed.
Print Assumptions C70_quasiper_clipped.

(** two points a thousand days apart with a decay of one day, predicted at the first and between *)
Example C70_quasiper_clipped_ex : exists mu sd, snd (gp_predict GpMore.zero_fwd ref_la (xq_gp 1000 1) (xq_row 0 0 1 (1 / 3) 10 1) (xq_k 1000) [0; 500]) = Ok (map Fin mu, sd) /\ length mu = 2%nat.
Proof. exact xq_predicts. Qed.

(** two points, three times; the same time twice without uncertainty *)
Example C70_sqexp_ex : exact_predict ref_la /\
  (exists mu sd, snd (gp_predict zero_fwd ref_la (xg_gp 1 1) (srow 0 1 2 3) (xg_k 1) [0; 1 / 2; 7]) = Ok (map Fin mu, map Fin sd) /\ length mu = 3%nat) /\
  snd (gp_predict zero_fwd ref_la (xg_gp 0 0) (srow 0 0 1 1) (xg_k 0) [3]) = Err LinAlgError.
Proof.
  split; [exact ref_predict|]. split.
  - destruct (xg_hyps 1 1 0 1 2 3) as (A1 & A2 & A3 & A4 & A5 & A6 & A7 & A8).
    destruct (C70_sqexp_partial _ _ _ _ _ _ (xg_data 1 1) 0 1 [0; 1 / 2; 7] ref_predict A1 A2 A3 ltac:(discriminate) ltac:(discriminate) A4 A5 A6 2 3 eq_refl A7 A8 ltac:(lra)) as (P & Q & _).
    destruct P as (mu & sd & E & L & _); [apply Q; intros p [<-|[<-|[]]]; unfold var_of; cbn; lra|]. exists mu, sd. split; [exact E|exact L].
  - destruct (xg_hyps 0 0 0 0 1 1) as (A1 & A2 & A3 & A4 & A5 & A6 & A7 & A8).
    destruct (C70_sqexp_partial _ _ _ _ _ _ (xg_data 0 0) 0 0 [3] ref_predict A1 A2 A3 ltac:(discriminate) ltac:(discriminate) A4 A5 A6 1 1 eq_refl A7 A8 ltac:(lra)) as (_ & _ & H). apply H. exact xg_singular.
Qed.

(** The predicted uncertainty is never above the amplitude, nor, at a time of the data, above the uncertainty with jitter of that datum. *)
Theorem C70_bounds : forall amp c jit data res x mu sd, (forall t, c t t = 1) -> best_estimate amp c jit data res x mu sd ->
  sd ^ 2 <= amp ^ 2 /\ (forall p, In p data -> d_t p = x -> sd ^ 2 <= var_of jit p).
Proof. exact estimate_bounds. Qed.
Print Assumptions C70_bounds.

(** At the time of a datum without uncertainty the prediction is the residual, with uncertainty zero. *)
Theorem C70_interpolates : forall amp c jit data res mu sd i p, (forall t, c t t = 1) -> pd (length data) (data_cov amp c jit data) -> nth_error data i = Some p -> var_of jit p = 0 ->
  best_estimate amp c jit data res (d_t p) mu sd -> mu = res i /\ sd = 0.
Proof. exact estimate_exact. Qed.
Print Assumptions C70_interpolates.

(** one datum 5 at time 0, kernel 3^2: with uncertainty 4 the estimate is 9/25 of it, with none it is all of it *)
Example C70_bounds_ex : best_estimate 3 (fun _ _ => 1) 0 [mkDatum 0 5 4] (fun _ => 5) 0 (9 / 25 * 5) (12 / 5) /\ best_estimate 3 (fun _ _ => 1) 0 [mkDatum 0 5 0] (fun _ => 5) 0 5 0 /\
  pd 1 (data_cov 3 (fun _ _ => 1) 0 [mkDatum 0 5 0]).
Proof.
  split; [|split].
  - exists (fun _ => 9 / 25). unfold pred_err, quad, Sum, rsum, data_cov, var_of. cbn [length seq map fold_left fold_right nth Nat.eqb d_t d_y d_err]. repeat split; try lra. intro w. pose proof (pow2_ge_0 (w 0%nat - 9 / 25)). nra.
  - exists (fun _ => 1). unfold pred_err, quad, Sum, rsum, data_cov, var_of. cbn [length seq map fold_left fold_right nth Nat.eqb d_t d_y d_err]. repeat split; try lra. intro w. pose proof (pow2_ge_0 (w 0%nat - 1)). nra.
  - intros w (i & Hi & N). unfold quad, Sum, rsum, data_cov, var_of. cbn [length seq map fold_left fold_right nth Nat.eqb d_t d_y d_err]. assert (i = 0)%nat as -> by lia. assert (0 < w 0%nat ^ 2) by nra. nra.
Qed.

(** residuals() is the data minus offset, model and the best estimate of the correlated noise at that time. *)
Theorem C70_residuals : forall la fwd f g v k data gam jit amp c, has_data (g_like g) data -> fwd v (l_x (g_like g)) = Ok (map f (l_x (g_like g))) -> vget v (l_gidx (g_like g)) = Ok gam ->
  predicts la fwd f g v k data gam jit amp c (l_x (g_like g)) -> (exists L, factor (length data) (data_cov amp c jit data) L) ->
  exists rs, snd (gp_residuals fwd la g v k) = Ok (map Fin rs) /\ length rs = length data /\
    forall i p r, nth_error data i = Some p -> nth_error rs i = Some r -> exists mu sd, best_estimate amp c jit data (data_resid f gam data) (d_t p) mu sd /\ r = d_y p - gam - f (d_t p) - mu.
Proof. exact residuals_value. Qed.
Print Assumptions C70_residuals.

Example C70_residuals_ex : exists rs, snd (gp_residuals zero_fwd ref_la (xg_gp 1 1) (srow 0 1 2 3) (xg_k 1)) = Ok (map Fin rs) /\ length rs = 2%nat.
Proof.
  destruct (xg_hyps 1 1 0 1 2 3) as (A1 & A2 & A3 & A4 & A5 & A6 & A7 & A8).
  pose proof (C70_sqexp_partial _ _ _ _ _ _ (xg_data 1 1) 0 1 [0; 1] ref_predict A1 A2 A3 ltac:(discriminate) ltac:(discriminate) A4 A5 A6 2 3 eq_refl A7 A8 ltac:(lra)) as P.
  destruct (C70_residuals _ _ _ _ _ _ (xg_data 1 1) 0 1 3 _ A3 A4 A5 P) as (rs & E & L & _); [apply (proj1 (proj2 P)); intros p [<-|[<-|[]]]; unfold var_of; cbn; lra|]. exists rs. split; [exact E|exact L].
Qed.
