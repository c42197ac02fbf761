(** Property theorems C39, C40, C59: fitting and model comparison. *)
From Coq Require Import Reals String Arith Bool Lra List.
From Verif Require Import Py PyFloat PyFacts Params ParamsProofs ParamsSpec VectorProofs BasisExtra Basis RVModel Likelihood LikeSpec LikeProofs LikeHist LikeBuild
  Prior Posterior PostProofs PostHist PostRefute Fitting FittingProofs ModelComp ModelCompSpec ModelCompProofs ModelCompThms.
Import ListNotations.
Open Scope R_scope.
Open Scope string_scope.


(** * C39 *)
(** For any optimiser the posterior is left at the last point evaluated, with the
    dictionary holding the same values and fixed parameters as they were. G: the rows the
    log-probability itself writes (offsets that are marginalised over). *)
Theorem C39_last_evaluation : forall (lp : list row -> list row * res ext) (G : nat -> Prop) (v0 : list row),
  frame_ok G v0 lp -> blind_to G v0 lp -> (forall i, G i -> ~ is_free v0 i) ->
  forall (d idx : dict nat) (h0 : heap), objects_ok h0 d ->
  (forall k i, In k (dkeys d) -> dget idx k = Some i -> (i < length v0)%nat) ->
  forall cp cl optimiser verbose s',
  cache_fresh cp v0 -> cache_fresh cl v0 ->
    maxlike_fitting lp d idx optimiser verbose (mkFit v0 cp cl h0) = (s', Ok tt) ->
    exists x0 v1, holds_at v0 x0 /\ agree G v0 v1 /\ (verbose = false -> v1 = v0) /\
      let o := optimiser x0 in let tr := trace lp o (v1, cl) in
      (exists rep, reported lp o (v1, cl) = Some rep) /\
      (forall i, ~ is_free v0 i -> ~ G i -> nth_error (f_rows s') i = nth_error v0 i) /\
      (forall k p i, get_param h0 d k = Some p -> dget idx k = Some i -> ~ G i ->
         exists r, nth_error (f_rows s') i = Some r /\ get_param (f_heap s') d k = Some (mkParam (r_val r) (p_vary p) (p_scale p) (p_lin p))) /\
      (match rev tr with
       | [] => holds_at (f_rows s') x0
       | (x, y) :: _ => holds_at (f_rows s') x /\ snd (lp (f_rows s')) = Ok y
       end) /\
      (forall y0 t, tr = (x0, y0) :: t -> snd (lp v0) = Ok y0).
Proof. exact maxlike_main. Qed.
Print Assumptions C39_last_evaluation.

Example C39_last_evaluation_ex : exists h d s', maxlike_fitting fit_post d (l_indices ex_like) fit_opt false (mkFit (ex_rows 1) None None h) = (s', Ok tt).
Proof. destruct maxlike_refuted as (h & d & rep & y0 & _ & _ & _ & s' & E & _). exists h, d, s'. exact E. Qed.

(** The full claim for optimisers that evaluate the start first and the solution they
    report last. Missing: other optimisers (C39_optimum_refuted). *)
Theorem C39_optimum_partial : forall (lp : list row -> list row * res ext) (G : nat -> Prop) (v0 : list row),
  frame_ok G v0 lp -> blind_to G v0 lp -> (forall i, G i -> ~ is_free v0 i) ->
  forall (d idx : dict nat) (h0 : heap), objects_ok h0 d ->
  (forall k i, In k (dkeys d) -> dget idx k = Some i -> (i < length v0)%nat) ->
  forall cp cl optimiser verbose s',
  cache_fresh cp v0 -> cache_fresh cl v0 ->
    maxlike_fitting lp d idx optimiser verbose (mkFit v0 cp cl h0) = (s', Ok tt) ->
    (forall x0 v, holds_at v0 x0 -> agree G v0 v -> exists y0 x y t u, 
       trace lp (optimiser x0) (v, cl) = (x0, y0) :: t /\ rev (trace lp (optimiser x0) (v, cl)) = (x, y) :: u /\
       (forall rep, reported lp (optimiser x0) (v, cl) = Some rep -> rep = x) /\ le_ext y0 y) ->
    exists x0 v rep y0 y, holds_at v0 x0 /\ agree G v0 v /\ reported lp (optimiser x0) (v, cl) = Some rep /\ holds_at (f_rows s') rep /\
      snd (lp v0) = Ok y0 /\ snd (lp (f_rows s')) = Ok y /\ le_ext y0 y.
Proof. exact maxlike_optimum. Qed.
Print Assumptions C39_optimum_partial.

Example C39_optimum_partial_ex : exists y0, snd (fit_post (ex_rows 1)) = Ok (Fin y0) /\ holds_at (ex_rows 1) [Some 1%R].
Proof.
  destruct maxlike_refuted as (h & d & rep & y0 & H & _ & E & _). exists y0. split; [exact E|]. split; [reflexivity|].
  intros [|[|j]] i Hi; cbn in Hi; try discriminate. inversion Hi; subst. eexists. split; reflexivity.
Qed.

(** The same for posteriors made by the constructors. *)
Theorem C39_built : forall h ps b names vec ds h1 ps1 vec1 ls use_c fuel tb priors cp cl optimiser verbose s',
  layout (ps_num ps) b names (dkeys (ps_items ps)) -> b_num (ps_basis ps) = ps_num ps ->
  vector_init h ps = Ok vec -> build_likes h ps vec ds = Ok (h1, ps1, vec1, ls) ->
  objects_ok h1 (ps_items ps1) ->
  let v0 := v_vector vec1 in
  (forall p, In p priors -> prior_admissible (ps_num ps) ls v0 (v_indices vec1) p) ->
  let fwd := rv_forward use_c fuel ps1 (v_indices vec1) (v_names vec1) tb in
  let post := post_logprob (ps_basis ps1) (v_indices vec1) (comp_logprob (map (rv_member fwd) ls)) priors in
  cache_fresh cp v0 -> cache_fresh cl v0 ->
  maxlike_fitting post (ps_items ps1) (v_indices vec1) optimiser verbose (mkFit v0 cp cl h1) = (s', Ok tt) ->
  (forall i, ~ is_free v0 i -> ~ marg_rows ls v0 i -> nth_error (f_rows s') i = nth_error v0 i) /\
  (forall k p i, get_param h1 (ps_items ps1) k = Some p -> dget (v_indices vec1) k = Some i -> ~ marg_rows ls v0 i ->
     exists r, nth_error (f_rows s') i = Some r /\
       get_param (f_heap s') (ps_items ps1) k = Some (mkParam (r_val r) (p_vary p) (p_scale p) (p_lin p))) /\
  exists x0 v1, holds_at v0 x0 /\ agree (marg_rows ls v0) v0 v1 /\
    match rev (trace post (optimiser x0) (v1, cl)) with
    | [] => holds_at (f_rows s') x0
    | (x, y) :: _ => holds_at (f_rows s') x /\ snd (post (f_rows s')) = Ok y
    end.
Proof. exact maxlike_built. Qed.
Print Assumptions C39_built.

(** The optimiser reports the start as solution, but evaluated another point last: the
    posterior is left there, at log-probability -inf. *)
Theorem C39_optimum_refuted : exists h d rep y0,
  let s0 := mkFit (ex_rows 1) None None h in
  holds_at (ex_rows 1) rep /\ reported fit_post (fit_opt rep) (ex_rows 1, None) = Some rep /\ snd (fit_post (ex_rows 1)) = Ok (Fin y0) /\
  exists s', maxlike_fitting fit_post d (l_indices ex_like) fit_opt false s0 = (s', Ok tt) /\
    holds_at (f_rows s') [Some 20] /\ snd (fit_post (f_rows s')) = Ok NInf /\
    match get_param (f_heap s') d "jit_a" with Some p => p_value p = Some 20 | None => False end.
Proof. exact maxlike_refuted. Qed.
Print Assumptions C39_optimum_refuted.

(** * C40 *)
(** All combinations of comparisons without "gp": the models of [models] are fitted in order,
    the posterior passed keeps its parameters if there is any comparison, and results are
    appended to the list passed. Missing from the full claim: the posterior passed is fitted
    in place for [] (C40_in_place_refuted), and calls without a list share one
    (C40_history_refuted). *)
Theorem C40_models_partial : forall (stats : Type) (env : menv) (fit : pst -> pst * res stats) (ep cp : list string) (n : nat), env_ok env ep cp n ->
  forall params s,
  incl params ["e"; "nplanets"; "trend"; "jit"] -> length (m_rows s) = n -> m_cp s <> None ->
    exists ms, models env ep cp params s ms /\
      (forall l sts, Forall2 (fun m st => snd (fit m) = Ok st) ms sts ->
         model_comp stats env fit params s l = (match params with [] => fst (fit s) | _ => s end, (l ++ sts)%list, Ok tt)) /\
      (forall l a m b sts e, ms = (a ++ m :: b)%list -> Forall2 (fun m st => snd (fit m) = Ok st) a sts -> snd (fit m) = Err e ->
         model_comp stats env fit params s l = (match params with [] => fst (fit s) | _ => s end, (l ++ sts)%list, Err e)).
Proof. exact model_comp_models. Qed.
Print Assumptions C40_models_partial.

Example C40_models_ex : exists vec ep cp, vector_init (ex_h ["per"; "tc"; "e"; "w"; "k"]) (ex_ps "per tc e w k" ["per"; "tc"; "e"; "w"; "k"]) = Ok vec /\
  env_ok (mkEnv (v_indices vec) (v_names vec) "per tc e w k" 2 None) ep cp (length (v_vector vec)).
Proof.
  destruct (vector_init (ex_h ["per"; "tc"; "e"; "w"; "k"]) (ex_ps "per tc e w k" ["per"; "tc"; "e"; "w"; "k"])) as [vec|e] eqn:E; [|vm_compute in E; discriminate].
  destruct (ex_layout "per tc e w k" ["per"; "tc"; "e"; "w"; "k"]) as [L _]; [cbn; tauto|].
  destruct (env_of_vector _ (ex_ps "per tc e w k" ["per"; "tc"; "e"; "w"; "k"]) "per tc e w k" ["per"; "tc"; "e"; "w"; "k"] vec None L E) as (ep & cp & _ & O).
  exists vec, ep, cp. auto.
Qed.

(** One kind of comparison: the models are those of [stage]. *)
Theorem C40_single : forall (stats : Type) (env : menv) (fit : pst -> pst * res stats) (ep cp : list string) (n : nat), env_ok env ep cp n ->
  forall x s,
  In x ["e"; "nplanets"; "trend"; "jit"] -> length (m_rows s) = n -> m_cp s <> None ->
    exists cs, stage env ep cp s x cs /\
      (forall l sts, Forall2 (fun m st => snd (fit m) = Ok st) cs sts -> model_comp stats env fit [x] s l = (s, (l ++ sts)%list, Ok tt)) /\
      (forall l a m b sts e, cs = (a ++ m :: b)%list -> Forall2 (fun m st => snd (fit m) = Ok st) a sts -> snd (fit m) = Err e ->
         model_comp stats env fit [x] s l = (s, (l ++ sts)%list, Err e)).
Proof. exact model_comp_single. Qed.
Print Assumptions C40_single.

Example C40_single_ex : exists s, fresh s /\ length (m_rows s) = 1%nat /\ m_cp s <> None.
Proof. exists (relist (mkPst [mkM (Fin 0) true] None None)). split; [apply relist_fresh|]. split; [reflexivity|discriminate]. Qed.

(** 2^m - 1 sets when m planets have free parameters. *)
Theorem C40_count : forall env names s Gs F,
  free_sets env names s Gs -> NoDup F ->
  (forall m, In m F <-> (1 <= m <= e_num env)%nat /\ exists p, In p names /\ free_key env s (key p m)) ->
  length Gs = (2 ^ length F - 1)%nat.
Proof. exact free_sets_count. Qed.
Print Assumptions C40_count.

Example C40_count_ex : let env := mkEnv [("k1", 0%nat); ("k2", 1%nat)] [] "per tp e w k" 2 None in
  let s := mkPst [mkM (Fin 1) true; mkM (Fin 1) false] None None in
  free_sets env ["k"] s [[1%nat]].
Proof.
  split; [repeat constructor; intros []|]. intro G. split.
  - intros [<-|[]]. split.
    + split; [discriminate|]. split; [repeat constructor|]. intros n [<-|[]]. split; [apply le_n|apply le_S, le_n].
    + intros n [<-|[]]. exists "k". split; [now left|]. exists 0%nat. split; [reflexivity|]. eexists. split; reflexivity.
  - intros ((A & B & C) & D). assert (forall n, In n G -> n = 1%nat) as Q.
    { intros n Hn. destruct (D n Hn) as (p & [<-|[]] & i & Ei & r & Er & V). specialize (C n Hn).
      destruct n as [|[|[|n]]]; [destruct C as [C _]; inversion C|reflexivity| |exfalso; destruct C as [_ C]; repeat (apply le_S_n in C); inversion C].
      cbn in Ei. inversion Ei; subst i. cbn in Er. inversion Er; subst r. discriminate. }
    destruct G as [|a G]; [easy|]. left. rewrite (Q a (or_introl eq_refl)). destruct G as [|b G]; [reflexivity|].
    exfalso. inversion B as [|? ? B1 B2]; subst. inversion B2 as [|? ? B3]; subst.
    rewrite (Q a (or_introl eq_refl)), (Q b (or_intror (or_introl eq_refl))) in B3. exact (Nat.lt_irrefl _ B3).
Qed.

(** Earlier results only precede those of the call. *)
Theorem C40_history_partial : forall (stats : Type) (env : menv) (fit : pst -> pst * res stats) (ep cp : list string) (n : nat), env_ok env ep cp n ->
  forall params s l l1 r,
  incl params ["e"; "nplanets"; "trend"; "jit"] -> length (m_rows s) = n -> m_cp s <> None ->
    model_comp stats env fit params s [] = (r, l1, Ok tt) -> model_comp stats env fit params s l = (r, (l ++ l1)%list, Ok tt).
Proof. exact model_comp_history. Qed.
Print Assumptions C40_history_partial.

Example C40_history_partial_ex : let s := relist (mkPst [mkM (Fin 0) true] None None) in
  model_comp nat (mkEnv [] [] "per tp e w k" 0 None) (fun m => (m, Ok 7%nat)) ["e"] s [] = (s, [7%nat], Ok tt).
Proof. reflexivity. Qed.

(** Posteriors whose vector was made by the constructor. *)
Theorem C40_built : forall h ps b names vec hn,
  layout (ps_num ps) b names (dkeys (ps_items ps)) -> vector_init h ps = Ok vec ->
  exists ep cp, basis_names b ep cp /\ env_ok (mkEnv (v_indices vec) (v_names vec) b (ps_num ps) hn) ep cp (length (v_vector vec)).
Proof. exact env_of_vector. Qed.
Print Assumptions C40_built.

(** Fit that moves the parameter to 1: so is the caller's, also for gp without a Gaussian
    process in the model. *)
Theorem C40_in_place_refuted : exists (env : menv) (fit : pst -> pst * res nat) (s : pst),
  (forall m, snd (fit m) = Ok 7%nat) /\ fresh s /\ free_row s 0 /\
  m_rows s = [mkM (Fin 0) true] /\
  (forall p, In p [[]; ["gp"]] -> m_rows (fst (fst (model_comp nat env fit p s []))) = [mkM (Fin 1) true]).
Proof. exact in_place_refuted. Qed.
Print Assumptions C40_in_place_refuted.

Theorem C40_history_refuted : exists (env : menv) (fit : pst -> pst * res nat) (s : pst),
  fresh s /\ fit s = (s, Ok 7%nat) /\
  default_calls nat env fit [([], s); ([], s)] [] = ([Ok [7%nat]; Ok [7%nat; 7%nat]], [7%nat; 7%nat]).
Proof. exact default_refuted. Qed.
Print Assumptions C40_history_refuted.

(** * C59 *)
(** What "gp" fits: first a copy with hyperparameters at zero, then the posterior passed,
    which is changed. *)
Theorem C59_models_partial : forall (stats : Type) (env : menv) (fit : pst -> pst * res stats) (ep cp : list string) (n : nat), env_ok env ep cp n ->
  forall hn rest s,
  e_hnames env = Some hn -> NoDup hn -> (exists k, In k (e_names env) /\ substr_in "gp_amp" k = true) ->
    (forall k, In k hn -> exists i, dget (e_idx env) k = Some i /\ (i < n)%nat) ->
    (forall k k' i, In k hn -> In k' hn -> dget (e_idx env) k = Some i -> dget (e_idx env) k' = Some i -> k = k') ->
    incl rest ["e"; "nplanets"; "trend"; "jit"] -> length (m_rows s) = n -> m_cp s <> None ->
    exists c ms1 ms2, gp_zeroed env hn s c /\ models env ep cp rest c ms1 /\ models env ep cp rest (relist s) ms2 /\
      forall l sts, Forall2 (fun m st => snd (fit m) = Ok st) (ms1 ++ ms2) sts ->
        model_comp stats env fit ("gp" :: rest) s l =
          (match rest with [] => fst (fit (relist s)) | _ => relist s end, (l ++ sts)%list, Ok tt).
Proof. exact gp_models. Qed.
Print Assumptions C59_models_partial.

Example C59_models_partial_ex : exists c, gp_zeroed (mkEnv [("gp_amp", 0%nat)] ["gp_amp"] "per tp e w k" 0 (Some ["gp_amp"])) ["gp_amp"] (mkPst [mkM (Fin 1) true] None None) c.
Proof.
  exists (mkPst [mkM (Fin 0) true] None None). split; [|split; reflexivity]. split; [reflexivity|]. split.
  - intros k i r [<-|[]] Hi Hr. cbn in Hi. inversion Hi; subst. cbn in Hr. inversion Hr; subst. reflexivity.
  - intros [|[|i]] H; cbn; auto. exfalso. apply (H "gp_amp"); [now left|reflexivity].
Qed.

(** No row of that copy is fixed. *)
Theorem C59_no_gp_free : forall (env : menv) hn s c, gp_zeroed env hn s c -> (forall i, free_row c i <-> free_row s i).
Proof. exact flags_kept. Qed.
Print Assumptions C59_no_gp_free.

(** The statistics of a fit are here the vary flags: both models have both hyperparameters
    free. *)
Theorem C59_no_gp_refuted : exists (env : menv) (fit : pst -> pst * res (list bool)) (s : pst),
  (forall m, fit m = (m, Ok (map m_vary (m_rows m)))) /\ e_hnames env = Some ["gp_amp"; "gp_per"] /\
  fresh s /\ free_key env s "gp_amp" /\ free_key env s "gp_per" /\
  model_comp (list bool) env fit ["gp"] s [] = (s, [[true; true]; [true; true]], Ok tt).
Proof. exact gp_refuted. Qed.
Print Assumptions C59_no_gp_refuted.
