(** Property theorems C33-C38: the MCMC driver. *)
From Coq Require Import Reals String ZArith Lra Lia Permutation Bool List.
From Verif Require Import Py PyFloat Params Mcmc McmcSpec McmcProofs McmcThms McmcRows McmcSave McmcSaveProofs McmcSaveThms.
Import ListNotations.
Open Scope R_scope.


(** * C33 *)
(** Full claim: also that nrun bounds the steps per walker (C33_requested_refuted).
    [after ... r h m]: m is the state after r rounds of a new run. *)
Theorem C33_accounting_partial : forall (tr : nat -> nat -> ens -> sample * list nat) (acor : list (list sample) -> list ext) (g : mcfg), forall inits prev r h m,
  length inits = g_ensembles g -> (2 <= g_check g)%nat ->
  after tr acor g (start g inits prev) r h m ->
  length (m_samplers m) = g_ensembles g /\
  (forall s, In s (m_samplers m) -> sp_calls s = (r * g_check g)%nat) /\
  ((1 <= r)%nat -> m_ncomplete m = (r * g_check g * nw_of g * g_ensembles g)%nat) /\
  exists b, (b <= r)%nat /\ (m_burned m = true <-> (1 <= b)%nat) /\ m_nburn m = (b * g_check g * nw_of g * g_ensembles g)%nat /\
    forall s, In s (m_samplers m) -> length (sp_chain s) = ((r - b) * g_check g)%nat.
Proof. exact after_accounting. Qed.
Print Assumptions C33_accounting_partial.

Example C33_accounting_ex : exists m, length p0s = g_ensembles g2 /\ (2 <= g_check g2)%nat /\
  after tr2 acor1 g2 (start g2 p0s None) 2 [] m /\ m_ncomplete m = 16%nat.
Proof. exact ex_two_rounds. Qed.

(** The number of rounds is nrun/(checkinterval-1), rounded to a nearest integer; a round takes checkinterval steps. *)
Theorem C33_rounds : forall (g : mcfg), forall n,
  (2 <= g_check g)%nat -> num_run g = Ok n ->
  (2 * Z.abs (n * (Z.of_nat (g_check g) - 1) - g_nrun g) <= Z.of_nat (g_check g) - 1)%Z.
Proof. exact num_run_near. Qed.
Print Assumptions C33_rounds.

Example C33_rounds_ex : (2 <= g_check (mkCfg 50 5 10000 8 50 th0 (Fin 25) (Fin (103/100)) 1000 5 1))%nat /\
  num_run (mkCfg 50 5 10000 8 50 th0 (Fin 25) (Fin (103/100)) 1000 5 1) = Ok 204%Z.
Proof. split; [cbn; lia|exact default_rounds]. Qed.

(** Two steps requested, three taken. (With the defaults 10000 requested steps become 204 rounds of 50.) *)
Theorem C33_requested_refuted : exists m df s,
  mcmc tr1 acor1 (g_never 2 3) [p_a] None = Ok (m, df) /\ m_samplers m = [s] /\ (g_nrun (g_never 2 3) < Z.of_nat (sp_calls s))%Z.
Proof. exact more_steps_than_requested. Qed.
Print Assumptions C33_requested_refuted.

(** * C34 *)
(** h lists the outcomes of the computed tests, newest first: a run shorter than n rounds
    ended with two passed tests, the first computed test failed, and no earlier round
    ended with two passed tests. *)
Theorem C34_stop : forall (tr : nat -> nat -> ens -> sample * list nat) (acor : list (list sample) -> list ext) (g : mcfg), forall inits prev n m,
  rounds tr acor g n (start g inits prev) = Ok m ->
  exists r h, after tr acor g (start g inits prev) r h m /\ (r <= n)%nat /\
    ((r < n)%nat -> exists h', h = true :: true :: h') /\
    (h <> [] -> exists h', h = (h' ++ [false])%list) /\
    (forall q hq mq, (q < r)%nat -> after tr acor g (start g inits prev) q hq mq -> forall h', hq <> true :: true :: h').
Proof. exact run_after. Qed.
Print Assumptions C34_stop.

Example C34_stop_ex : exists m, rounds tr2 acor1 g2 2 (start g2 p0s None) = Ok m.
Proof. exact ex_rounds. Qed.

(** * C35 *)
(** Full claim: burn-in samples never returned, and every sample generated from the
    preceding one.  Proved: what the stored chains are.  b is the number of burn-in
    rounds.  If the last round was not the one that ended burn-in, the chains hold
    exactly the samples after it; sample i is generated from [origin]: the preceding
    sample, but for the second sample of a round the one before that. *)
Theorem C35_trajectory_partial : forall (tr : nat -> nat -> ens -> sample * list nat) (acor : list (list sample) -> list ext) (g : mcfg), forall inits prev r h m,
  length inits = g_ensembles g -> (2 <= g_check g)%nat ->
  after tr acor g (start g inits prev) r h m -> (1 <= r)%nat ->
  exists chains b, m_chains m = Some chains /\ length chains = g_ensembles g /\ (b <= r)%nat /\ (m_burned m = true <-> (1 <= b)%nat) /\
    m_nburn m = (b * g_check g * nw_of g * g_ensembles g)%nat /\
    forall e p0 c, nth_error inits e = Some p0 -> nth_error chains e = Some c ->
      let d := if (b <? r)%nat then b else 0%nat in
      let p := pos_after tr e (g_check g) d 0 p0 in
      length c = ((r - d) * g_check g)%nat /\
      forall i, (i < length c)%nat -> nth_error c i = Some (fst (tr e (d * g_check g + i)%nat (origin (g_check g) c p i))).
Proof. exact chains_trajectory. Qed.
Print Assumptions C35_trajectory_partial.

Example C35_trajectory_ex : exists m, length p0s = g_ensembles g2 /\ (2 <= g_check g2)%nat /\
  after tr2 acor1 g2 (start g2 p0s None) 2 [] m /\ m_ncomplete m = 16%nat.
Proof. exact ex_two_rounds. Qed.

(** No transition leads from the first stored sample to the second. *)
Theorem C35_second_sample_refuted : exists m df x y,
  mcmc tr1 acor1 (g_never 1 2) [p_a] None = Ok (m, df) /\ m_chains m = Some [[x; y]] /\
  forall k, y <> fst (tr1 0 k (s_pos x)).
Proof. exact chain_not_trajectory. Qed.
Print Assumptions C35_second_sample_refuted.

(** All completed steps belong to burn-in, and all are returned. *)
Theorem C35_burn_in_refuted : exists m df,
  mcmc tr1 acor1 g_always [p_a] None = Ok (m, df) /\ m_burned m = true /\ m_nburn m = m_ncomplete m /\ length df = m_nburn m.
Proof. exact burn_in_returned. Qed.
Print Assumptions C35_burn_in_refuted.

(** * C36 *)
(** valid: existing ensemble, walker and step; row_of: parameters and log-probability of that triple. *)
Theorem C36_rows : forall (g : mcfg) chains, chains <> [] -> Forall (shaped g) (concat chains) ->
  exists rowno : nat * nat * nat -> nat,
    (forall t, valid g chains t -> exists row, nth_error (df_rows g chains) (rowno t) = Some row /\ row_of chains t row) /\
    (forall t t', valid g chains t -> valid g chains t' -> rowno t = rowno t' -> t = t') /\
    (forall k, (k < length (df_rows g chains))%nat -> exists t, valid g chains t /\ rowno t = k).
Proof. exact df_rows_triples. Qed.
Print Assumptions C36_rows.

Example C36_rows_ex : [[sx 0; sx 1]; [sx 2]] <> [] /\ Forall (shaped g2) (concat [[sx 0; sx 1]; [sx 2]]).
Proof. split; [discriminate|repeat constructor]. Qed.

(** Walkers outermost, then ensembles, then steps. *)
Theorem C36_row_order : forall (g : mcfg) chains, chains <> [] -> Forall (shaped g) (concat chains) ->
  df_rows g chains = flat_map (fun w => map (walker_row w) (concat chains)) (seq 0 (nw_of g)).
Proof. exact df_rows_eq. Qed.
Print Assumptions C36_row_order.

Theorem C36_thin : forall {A} t (l : list A),
  (1 <= t)%nat -> exists l', thinned t l = Ok l' /\ forall i, nth_error l' i = nth_error l (i * t).
Proof. exact (@thinned_nth). Qed.
Print Assumptions C36_thin.

Example C36_thin_ex : thinned 2 [1; 2; 3; 4; 5] = Ok [1; 3; 5].
Proof. reflexivity. Qed.

(** The table returned by a whole run: its i-th row is row i*thin of the unthinned numbering. *)
Theorem C36_returned : forall tr acor g inits m df,
  (forall e c p, shaped g (fst (tr e c p))) -> (2 <= g_check g)%nat -> (1 <= g_ensembles g)%nat -> (1 <= g_thin g)%nat ->
  length inits = g_ensembles g -> mcmc tr acor g inits None = Ok (m, df) ->
  exists chains (rowno : nat * nat * nat -> nat), m_chains m = Some chains /\ length chains = g_ensembles g /\
    (forall t t', valid g chains t -> valid g chains t' -> rowno t = rowno t' -> t = t') /\
    (forall i row, nth_error df i = Some row -> exists t, valid g chains t /\ rowno t = (i * g_thin g)%nat /\ row_of chains t row) /\
    (forall t i, valid g chains t -> rowno t = (i * g_thin g)%nat -> exists row, nth_error df i = Some row /\ row_of chains t row).
Proof. exact mcmc_returned. Qed.
Print Assumptions C36_returned.

Example C36_returned_ex : exists m df, (forall e c p, shaped (g_never 2 3) (fst (tr2 e c p))) /\ (2 <= g_check (g_never 2 3))%nat /\
  (1 <= g_ensembles (g_never 2 3))%nat /\ (1 <= g_thin (g_never 2 3))%nat /\ length [p_a] = g_ensembles (g_never 2 3) /\
  mcmc tr2 acor1 (g_never 2 3) [p_a] None = Ok (m, df).
Proof.
  destruct (never_one_round tr2 2 3 ltac:(lia) ltac:(lia) eq_refl) as [m [df [H _]]]. exists m, df.
  split; [intros; repeat split; repeat constructor|]. split; [cbn; lia|]. split; [cbn; lia|]. split; [cbn; lia|]. split; [reflexivity|exact H].
Qed.

(** * C37 *)
(** A parameter shifted by b and rescaled by a. *)
Theorem C37_invariant : forall n a b pars,
  a <> 0 -> Forall (fun l => l <> []) pars -> pars <> [] ->
  gelman_rubin n (rescale a b pars) = gelman_rubin n pars.
Proof. exact gr_rescale. Qed.
Print Assumptions C37_invariant.

Example C37_invariant_ex : Forall (fun l : list R => l <> []) [[1; 2]; [3; 5]] /\ [[1; 2]; [3; 5]] <> [] /\ -2 <> 0.
Proof. repeat split; [repeat constructor; discriminate|discriminate|lra]. Qed.

Theorem C37_relabel : forall n pars pars',
  Permutation pars pars' -> gelman_rubin n pars = gelman_rubin n pars'.
Proof. exact gr_perm. Qed.
Print Assumptions C37_relabel.

(** mean and var are the mean and the population variance; within is the mean of the
    variances of the chains, var_of_means the variance of their means. *)
Theorem C37_formula : forall n pars,
  1 <= n -> 0 < within pars ->
  gelman_rubin n pars = Fin (sqrt (1 - 1 / n + var_of_means pars / within pars)).
Proof. exact gr_formula. Qed.
Print Assumptions C37_formula.

Theorem C37_bound : forall n pars,
  1 <= n -> 0 < within pars ->
  exists v, gelman_rubin n pars = Fin v /\ sqrt (1 - 1 / n) <= v /\
   (v = sqrt (1 - 1 / n) <-> forall l l', In l pars -> In l' pars -> mean l = mean l').
Proof. exact gr_bound. Qed.
Print Assumptions C37_bound.

Example C37_bound_ex : 1 <= 2 /\ 0 < within [[1; 2]; [3; 5]].
Proof. split; [lra|]. unfold within, var, mean. cbn. lra. Qed.

(** These are the values convergence_calculate reports. *)
Theorem C37_reported : forall acor th nw ndim chains old s,
  convergence_calculate acor th nw ndim chains old = Ok s ->
  length (st_gr s) = ndim /\
  forall j, (j < ndim)%nat -> forall c0, nth_error chains 0 = Some c0 ->
    nth_error (st_gr s) j = Some (gelman_rubin (INR (nw * length c0)) (map (fun c => flat_par nw c j) chains)).
Proof. exact calculate_gr. Qed.
Print Assumptions C37_reported.

(** * C38 *)
(** Full claim: for any file, and with a crash at any point.  Proved: the save of any
    round of any new run into a file without datasets of further ensembles, then resume.
    The autocorrelation times of the last test and the count of passed tests are not saved. *)
Theorem C38_resume_partial : forall (tr : nat -> nat -> ens -> sample * list nat) (acor : list (list sample) -> list ext) (g : mcfg), (forall e c p, length (s_pos (fst (tr e c p))) = nw_of g /\ Forall (fun w => length w = g_ndim g) (s_pos (fst (tr e c p)))) ->
  (2 <= g_check g)%nat ->
  (1 <= g_ensembles g)%nat ->
  (1 <= g_ndim g)%nat ->
  (forall inits prev r h m m1 f calls,
  length inits = g_ensembles g -> after tr acor g (start g inits prev) r h m ->
  round_to_save tr acor g m = Ok m1 -> clean f (g_ensembles g) ->
  exists f' m', save m1 f = Ok f' /\ resume g f' calls = Ok m' /\
    map sp_chain (m_samplers m') = map sp_chain (m_samplers m1) /\ map sp_acc (m_samplers m') = map sp_acc (m_samplers m1) /\
    map_res last_sample (m_samplers m1) = Ok (m_inits m') /\
    m_burned m' = m_burned m1 /\ (m_burned m1 = true -> m_nburn m' = m_nburn m1) /\
    m_autosamples m' = m_autosamples m1 /\ m_automin m' = m_automin m1 /\ m_automean m' = m_automean m1 /\ m_automax m' = m_automax m1 /\
    clean f' (g_ensembles g)).
Proof. exact resume_after_save. Qed.
Print Assumptions C38_resume_partial.

Example C38_resume_ex : (forall e c p, length (s_pos (fst (tr2 e c p))) = nw_of g2 /\ Forall (fun w => length w = g_ndim g2) (s_pos (fst (tr2 e c p)))) /\
  (2 <= g_check g2)%nat /\ (1 <= g_ensembles g2)%nat /\ (1 <= g_ndim g2)%nat /\ length p0s = g_ensembles g2 /\
  after tr2 acor1 g2 (start g2 p0s None) 0 [] (start g2 p0s None) /\
  round_to_save tr2 acor1 g2 (start g2 p0s None) = Ok M1 /\ clean [] (g_ensembles g2).
Proof.
  split; [apply tr2_shape|]. split; [cbn; lia|]. split; [cbn; lia|]. split; [cbn; lia|]. split; [reflexivity|].
  split; [constructor|]. split; [apply M1_reached|apply clean_nil].
Qed.

Theorem C38_other_settings : forall (tr : nat -> nat -> ens -> sample * list nat) (acor : list (list sample) -> list ext) (g : mcfg), (forall e c p, length (s_pos (fst (tr e c p))) = nw_of g /\ Forall (fun w => length w = g_ndim g) (s_pos (fst (tr e c p)))) ->
  (2 <= g_check g)%nat ->
  (1 <= g_ensembles g)%nat ->
  (1 <= g_ndim g)%nat ->
  (forall inits prev r h m m1 f f' g' calls,
  length inits = g_ensembles g -> after tr acor g (start g inits prev) r h m ->
  round_to_save tr acor g m = Ok m1 -> clean f (g_ensembles g) -> save m1 f = Ok f' ->
  (g_ensembles g', nw_of g', g_ndim g') <> (g_ensembles g, nw_of g, g_ndim g) -> resume g' f' calls = Err ValueError).
Proof. exact resume_other_settings. Qed.
Print Assumptions C38_other_settings.

Example C38_other_settings_ex : (forall e c p, length (s_pos (fst (tr2 e c p))) = nw_of g2 /\ Forall (fun w => length w = g_ndim g2) (s_pos (fst (tr2 e c p)))) /\
  (2 <= g_check g2)%nat /\ (1 <= g_ensembles g2)%nat /\ (1 <= g_ndim g2)%nat /\ length p0s = g_ensembles g2 /\
  after tr2 acor1 g2 (start g2 p0s None) 0 [] (start g2 p0s None) /\
  round_to_save tr2 acor1 g2 (start g2 p0s None) = Ok M1 /\ clean [] (g_ensembles g2).
Proof.
  split; [apply tr2_shape|]. split; [cbn; lia|]. split; [cbn; lia|]. split; [cbn; lia|]. split; [reflexivity|].
  split; [constructor|]. split; [apply M1_reached|apply clean_nil].
Qed.

(** A crash strictly inside the update of one ensemble is noticed. Eighteen operations per ensemble. *)
Theorem C38_crash_inside_partial : forall g m f n,
  length (m_samplers m) = g_ensembles g -> clean f (g_ensembles g) ->
  (n < length (save_ops m))%nat -> (n mod 18 <> 0)%nat ->
  exists f', run_ops (firstn n (save_ops m)) f = Ok f' /\ forall calls, exists e, resume g f' calls = Err e.
Proof. exact crash_refused. Qed.
Print Assumptions C38_crash_inside_partial.

Example C38_crash_inside_ex : length (m_samplers M1) = g_ensembles g2 /\ clean [] (g_ensembles g2) /\
  (25 < length (save_ops M1))%nat /\ (25 mod 18 <> 0)%nat.
Proof. split; [reflexivity|]. split; [apply clean_nil|]. split; [vm_compute; lia|discriminate]. Qed.

(** In the first save, into an empty file, a crash is noticed wherever it happens. *)
Theorem C38_first_save_crash : forall g m n,
  length (m_samplers m) = g_ensembles g -> (1 <= g_ensembles g)%nat -> (n < length (save_ops m))%nat ->
  exists f', run_ops (firstn n (save_ops m)) [] = Ok f' /\ forall calls, exists e, resume g f' calls = Err e.
Proof. exact first_save_crash_refused. Qed.
Print Assumptions C38_first_save_crash.

Example C38_first_save_crash_ex : length (m_samplers M1) = g_ensembles g2 /\ (1 <= g_ensembles g2)%nat /\ (18 < length (save_ops M1))%nat.
Proof. split; [reflexivity|]. split; [cbn; lia|vm_compute; lia]. Qed.

(** Two rounds of one run; a crash between the two ensembles of the second save. *)
Theorem C38_crash_between_refuted : exists m1 m1' m2 f1 f2 m n,
  round_to_save tr2 acor1 g2 (start g2 p0s None) = Ok m1 /\ burn_step g2 m1 = Ok m1' /\ round_to_save tr2 acor1 g2 m1' = Ok m2 /\
  save m1 [] = Ok f1 /\ run_ops (firstn n (save_ops m2)) f1 = Ok f2 /\ resume g2 f2 0 = Ok m /\
  map sp_chain (m_samplers m) <> map sp_chain (m_samplers m1) /\ map sp_chain (m_samplers m) <> map sp_chain (m_samplers m2) /\
  map (fun s => length (sp_chain s)) (m_samplers m) = [4; 2]%nat.
Proof. exact crash_mixture. Qed.
Print Assumptions C38_crash_between_refuted.

(** The same savename used before with more ensembles: a complete save cannot be resumed. *)
Theorem C38_leftover_refuted : exists m1 f1 m f2 e,
  round_to_save tr2 acor1 g2 (start g2 p0s None) = Ok m1 /\ save m1 [] = Ok f1 /\
  round_to_save tr2 acor1 g1 (start g1 [[[0]; [0]]] None) = Ok m /\ save m f1 = Ok f2 /\ resume g1 f2 0 = Err e.
Proof. exact leftover_refused. Qed.
Print Assumptions C38_leftover_refuted.
