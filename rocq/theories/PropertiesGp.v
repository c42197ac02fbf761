(** Property theorems C30-C32: Gaussian-process covariance and likelihoods. *)
From Coq Require Import Reals String ZArith Lra Lia Permutation Sorted Bool List.
From Verif Require Import Py PyFloat Params Kepler Basis Likelihood Gp GpSpec PsdProofs GpProofs GpHist GpMore.
Import ListNotations.
Open Scope R_scope.


(** * C30 *)
(** cov_spec: numbers only, symmetric, diagonal amp^2 + err^2, other entries in [0, amp^2]
    and equal to amp^2 times the kernel, positive semi-definite, definite when no error is 0. *)
Theorem C30_sqexp : forall h cov d0 xs es len amp,
  dget h "gp_length"%string = Some (Some len) -> dget h "gp_amp"%string = Some (Some amp) -> len <> 0 ->
  length es = length xs ->
  exists m, compute_covmatrix SqExp (set_dist (mkK h cov d0) xs xs) (inr es) = (mkK h (Some m) (cdist xs xs), Ok m) /\
            cov_spec xs es amp (fun x y => exp (- (x - y) ^ 2 / len ^ 2)) m.
Proof. exact sqexp_cov. Qed.
Print Assumptions C30_sqexp.

Example C30_sqexp_ex : dget (sh 2 3) "gp_length"%string = Some (Some 2) /\ dget (sh 2 3) "gp_amp"%string = Some (Some 3) /\ 2 <> 0 /\
  length [1; 1; 2] = length [0; 0; 5].
Proof. repeat split; lra. Qed.

Theorem C30_per : forall h cov d0 xs es len amp per,
  dget h "gp_length"%string = Some (Some len) -> dget h "gp_amp"%string = Some (Some amp) ->
  dget h "gp_per"%string = Some (Some per) -> len <> 0 -> per <> 0 ->
  length es = length xs ->
  exists m, compute_covmatrix Per (set_dist (mkK h cov d0) xs xs) (inr es) = (mkK h (Some m) (cdist xs xs), Ok m) /\
            cov_spec xs es amp (fun x y => exp (- sin (PI * (x - y) / per) ^ 2 / (2 * len ^ 2))) m.
Proof. exact per_cov. Qed.
Print Assumptions C30_per.

Example C30_per_ex : let h := [("gp_length", Some 2); ("gp_amp", Some 3); ("gp_per", Some 10)]%string in
  dget h "gp_length"%string = Some (Some 2) /\ dget h "gp_amp"%string = Some (Some 3) /\ dget h "gp_per"%string = Some (Some 10) /\
  2 <> 0 /\ 10 <> 0 /\ length [1; 1; 2] = length [0; 0; 5].
Proof. repeat split; lra. Qed.

(** Full claim: also positive semi-definite without a lower bound on the errors.  The
    clipping of the exponents at -100 makes that false (C30_quasiper_refuted). *)
Theorem C30_quasiper_partial : forall h cov d0 xs es pl amp per el,
  quasi_h h pl amp per el -> 0 < pl -> 0 < amp -> 0 < per -> 0 < el -> length es = length xs ->
  exists m a, compute_covmatrix QuasiPer (set_dist (mkK h cov d0) xs xs) (inr es) = (mkK h (Some m) (cdist xs xs), Ok m) /\
    is_matrix (length xs) m a /\ cov_entries (length xs) amp es a /\
    ((forall e, In e es -> 2 * INR (length xs) * amp ^ 2 * exp (-100) < e ^ 2) -> pd (length xs) a).
Proof. exact quasi_entries. Qed.
Print Assumptions C30_quasiper_partial.

Example C30_quasiper_partial_ex : quasi_h (qh 1 3 10 20) 1 3 10 20 /\ 0 < 3.
Proof. split; [apply qh_ok|lra]. Qed.

(** The full claim when no exponent is below -100. *)
Theorem C30_quasiper_unclipped_partial : forall h cov d0 xs es pl amp per el,
  quasi_h h pl amp per el -> 0 < pl -> 0 < amp -> 0 < per -> 0 < el -> length es = length xs ->
  (forall x y, In x xs -> In y xs -> (x - y) ^ 2 <= 100 * el ^ 2) -> 1 <= 200 * pl ^ 2 ->
  exists m, compute_covmatrix QuasiPer (set_dist (mkK h cov d0) xs xs) (inr es) = (mkK h (Some m) (cdist xs xs), Ok m) /\
    cov_spec xs es amp (fun x y => exp (- (x - y) ^ 2 / el ^ 2) * exp (- sin (PI * (x - y) / per) ^ 2 / (2 * pl ^ 2))) m.
Proof. exact quasi_unclipped. Qed.
Print Assumptions C30_quasiper_unclipped_partial.

Example C30_quasiper_unclipped_partial_ex : quasi_h (qh 1 3 10 20) 1 3 10 20 /\
  (forall x y, In x [0; 5; 5] -> In y [0; 5; 5] -> (x - y) ^ 2 <= 100 * 20 ^ 2) /\ 1 <= 200 * 1 ^ 2.
Proof.
  split; [apply qh_ok|]. split; [|lra]. intros x y Hx Hy. cbn in Hx, Hy.
  decompose [or] Hx; try contradiction; subst; decompose [or] Hy; try contradiction; subst; lra.
Qed.

(** All hyper-parameters and all errors positive, yet the matrix is indefinite. *)
Theorem C30_quasiper_refuted : exists h pl amp per el xs es m a c,
  quasi_h h pl amp per el /\ 0 < pl /\ 0 < amp /\ 0 < per /\ 0 < el /\ length es = length xs /\ (forall e, In e es -> 0 < e) /\
  compute_covmatrix QuasiPer (set_dist (mkK h None []) xs xs) (inr es) = (mkK h (Some m) (cdist xs xs), Ok m) /\
  is_matrix (length xs) m a /\ quad (length xs) a c < 0.
Proof. exact quasi_pd_refuted. Qed.
Print Assumptions C30_quasiper_refuted.

(** With a zero hyper-parameter the matrix is diag(err^2): positive semi-definite, but
    the diagonal lacks amp^2 (C30_zero_branch_refuted) and kernel.covmatrix is not updated. *)
Theorem C30_quasiper_zero_partial : forall h cov d0 xs es pl amp per el,
  quasi_h h pl amp per el -> 0 <= pl -> 0 <= amp -> 0 <= per -> 0 <= el -> pl * amp * per * el = 0 -> length es = length xs ->
  exists m, compute_covmatrix QuasiPer (set_dist (mkK h cov d0) xs xs) (inr es) = (mkK h cov (cdist xs xs), Ok m) /\
    is_matrix (length xs) m (fun i j => if Nat.eqb i j then xat es i ^ 2 else 0).
Proof. exact quasi_zero. Qed.
Print Assumptions C30_quasiper_zero_partial.

Example C30_quasiper_zero_partial_ex : quasi_h (qh 1 0 10 20) 1 0 10 20 /\ 1 * 0 * 10 * 20 = 0.
Proof. split; [apply qh_ok|lra]. Qed.

Theorem C30_zero_branch_refuted : exists h pl amp per el m a, quasi_h h pl amp per el /\ 0 <= pl /\ 0 < amp /\ 0 < per /\ 0 < el /\
  snd (compute_covmatrix QuasiPer (set_dist (mkK h None []) [0] [0]) (inr [1])) = Ok m /\
  is_matrix 1 m a /\ a 0%nat 0%nat <> amp ^ 2 + 1 ^ 2.
Proof. exact quasi_diag_refuted. Qed.
Print Assumptions C30_zero_branch_refuted.

(** Hence the hypotheses len <> 0, per <> 0 above. *)
Theorem C30_zero_length_refuted : exists h, dget h "gp_length"%string = Some (Some 0) /\ dget h "gp_amp"%string = Some (Some 1) /\
  snd (compute_covmatrix SqExp (set_dist (mkK h None []) [0] [0]) (inr [1])) = Ok [[NaN]].
Proof. exact sqexp_zero_length_refuted. Qed.
Print Assumptions C30_zero_length_refuted.

(** * C31 *)
(** Full claim: also for QuasiPer with a zero hyper-parameter, and after predict() calls
    that raised.  Both fail: C31_stale_covariance_refuted, C31_failed_predict_refuted. *)
Theorem C31_gp_history_partial : forall fwd la g calls v k k',
  covers g -> own_dist g k ->
  (g_kind g = QuasiPer -> nonzero_hyper g v) ->
  after_calls fwd la g calls k = Some k' ->
  snd (gp_logprob fwd la g v k') = snd (gp_logprob fwd la g v k).
Proof. exact gp_history. Qed.
Print Assumptions C31_gp_history_partial.

Example C31_gp_history_ex : forall v0 (v1 := qrow 0 1 1 2 10 20), covers (qgp 0 1 1) /\
  (exists k, gp_init (qlike 0 1 1) qnames QuasiPer [("gp_perlength", Some 1); ("gp_amp", Some 1); ("gp_per", Some 1); ("gp_explength", Some 1)]%string = Ok (qgp 0 1 1, k) /\
     own_dist (qgp 0 1 1) k /\ exists k', after_calls zero_fwd la1 (qgp 0 1 1) [CallLogprob v0; CallLogprob v1] k = Some k') /\
  nonzero_hyper (qgp 0 1 1) v1.
Proof.
  intros v0 v1. split; [apply q_covers|]. split.
  - eexists. split; [apply q_init|]. split; [reflexivity|]. eexists. reflexivity.
  - intros name i r Hn Hi Hr. cbn in Hn. decompose [or] Hn; try contradiction; subst name; injection Hi as <-; injection Hr as <-;
      (eexists; split; [reflexivity|lra]).
Qed.

Theorem C31_stale_covariance_refuted : exists g k v v1 x, covers g /\
  gp_init (g_like g) (g_hnames g) (g_kind g) [("gp_perlength", Some 1); ("gp_amp", Some 0); ("gp_per", Some 1); ("gp_explength", Some 1)]%string = Ok (g, k) /\
  snd (gp_logprob zero_fwd la1 g v k) = Ok NInf /\
  snd (gp_logprob zero_fwd la1 g v (fst (gp_logprob zero_fwd la1 g v1 k))) = Ok (Fin x).
Proof. exact gp_stale. Qed.
Print Assumptions C31_stale_covariance_refuted.

Theorem C31_failed_predict_refuted : exists g k v0 v xp e k' a b, covers g /\
  gp_init (g_like g) (g_hnames g) (g_kind g) [("gp_length", Some 1); ("gp_amp", Some 1)]%string = Ok (g, k) /\
  gp_predict zero_fwd la1 g v0 k xp = (k', Err e) /\
  snd (gp_logprob zero_fwd la1 g v k) = Ok (Fin a) /\
  snd (gp_logprob zero_fwd la1 g v k') = Ok (Fin b) /\ a <> b.
Proof. exact gp_predict_damage. Qed.
Print Assumptions C31_failed_predict_refuted.

(** * C32 *)
(** Full claim: for data in any time order (C32_celerite_unsorted_refuted).
    aligned: every observation reaches the solver once, with its own time stamp,
    err^2 + jit^2 and residual. *)
Theorem C32_celerite_sorted_partial : forall (fwd : forward) f l hn order pts v h gam jit call,
  cel_data l pts -> (forall xs, fwd v xs = Ok (map f xs)) ->
  vget v (l_gidx l) = Ok gam -> vget v (l_jidx l) = Ok jit -> sorting (l_x l) order ->
  StronglySorted Rle (l_x l) ->
  cel_call fwd (cel_init l hn order) v h = Ok call -> aligned pts jit gam f call.
Proof. exact cel_sorted_aligned. Qed.
Print Assumptions C32_celerite_sorted_partial.

Example C32_celerite_sorted_ex : let pts := [mkPt 0 1 1; mkPt 2 3 1; mkPt 2 4 2] in
  cel_data (clike pts) pts /\ (forall v xs, zero_fwd v xs = Ok (map (fun _ => 0) xs)) /\
  sorting (l_x (clike pts)) [0; 2; 1]%nat /\ StronglySorted Rle (l_x (clike pts)) /\
  exists call, cel_call zero_fwd (cel_init (clike pts) cnames [0; 2; 1]%nat) (qrow 0 0 1 1 1 1) ch = Ok call.
Proof.
  cbv zeta. split; [repeat split|]. split; [reflexivity|]. split.
  - split; [cbn; apply perm_skip, perm_swap|]. cbn. repeat constructor; lra.
  - split; [cbn; repeat constructor; lra|]. eexists. reflexivity.
Qed.

(** predict(): any time order. *)
Theorem C32_celerite_predict : forall (fwd : forward) f l hn order pts v h gam jit call,
  cel_data l pts -> (forall xs, fwd v xs = Ok (map f xs)) ->
  vget v (l_gidx l) = Ok gam -> vget v (l_jidx l) = Ok jit -> sorting (l_x l) order ->
  cel_predict_call fwd (cel_init l hn order) v h = Ok call -> aligned pts jit gam f call /\ StronglySorted Rle (s_t call).
Proof. exact cel_predict_aligned. Qed.
Print Assumptions C32_celerite_predict.

Example C32_celerite_predict_ex : cel_data (clike cpts) cpts /\ sorting (l_x (clike cpts)) [1; 0]%nat /\
  exists call, cel_predict_call zero_fwd (cel_init (clike cpts) cnames [1; 0]%nat) (qrow 0 0 1 1 1 1) ch = Ok call.
Proof.
  split; [repeat split|]. split; [split; [cbn; apply perm_swap|cbn; repeat constructor; lra]|]. eexists. reflexivity.
Qed.

Theorem C32_celerite_unsorted_refuted : exists l pts order v call, cel_data l pts /\ sorting (l_x l) order /\
  cel_call zero_fwd (cel_init l cnames order) v ch = Ok call /\
  vget v (l_gidx l) = Ok 0 /\ vget v (l_jidx l) = Ok 0 /\ ~ aligned pts 0 0 (fun _ => 0) call.
Proof. exact cel_misaligned. Qed.
Print Assumptions C32_celerite_unsorted_refuted.
