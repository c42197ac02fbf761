(** Property theorems C55: initialize_posterior. *)
From Coq Require Import Reals String Ascii Arith Bool Lia Lra Permutation List.
From Verif Require Import Py PyFloat PyFacts Params ParamsProofs ParamsSpec VectorProofs Basis BasisProofs BasisThms RVModel Likelihood LikeBuild ExLike Gp Setup SetupSpec SetupProofs SetupThms SetupMain SetupHyper ExSetup SetupGpSpec SetupGp ExSetupGp SetupDecorr ExSetupDecorr.
Import ListNotations.
Open Scope string_scope.


(** * C55 *)
(** Parameters in another basis than the fitting basis are refused. *)
Theorem C55_basis : forall (argsort : list R -> list nat) P decorr h,
  b_name (ps_basis (P_params P)) <> P_fitting_basis P -> initialize_posterior argsort P decorr h = Err AssertionError.
Proof. exact (@basis_refused). Qed.
Print Assumptions C55_basis.

Example C55_basis_ex x : initialize_posterior exs_sort (mkSetup exl_ps "per tc e w k" None 2 ["a"] [exs_obs x "a" 20] None None) false (exl_h x) = Err AssertionError.
Proof. apply C55_basis. discriminate. Qed.

(** A result means that they are in the fitting basis. *)
Theorem C55_basis_accepted : forall (argsort : list R -> list nat) P decorr h r,
  initialize_posterior argsort P decorr h = Ok r -> b_name (ps_basis (P_params P)) = P_fitting_basis P.
Proof. exact (@basis_accepted). Qed.
Print Assumptions C55_basis_accepted.

(** Decorrelation without the list of variables. *)
Theorem C55_decorr_refused : forall (argsort : list R -> list nat) P h,
  b_name (ps_basis (P_params P)) = P_fitting_basis P -> P_decorr_vars P = None -> initialize_posterior argsort P true h = Err PlainException.
Proof. exact (@decorr_refused). Qed.
Print Assumptions C55_decorr_refused.

Example C55_decorr_refused_ex x : initialize_posterior exs_sort (exs_P x ["a"; "b"]) true (exl_h x) = Err PlainException.
Proof. apply C55_decorr_refused; reflexivity. Qed.

(** A result means that each named instrument has data. *)
Theorem C55_data_required : forall (argsort : list R -> list nat), (forall x, Permutation (argsort x) (seq 0 (length x))) ->
  forall P decorr h r nm,
  params_ok h (P_params P) -> initialize_posterior argsort P decorr h = Ok r -> In nm (P_instnames P) ->
    exists o, In o (P_data P) /\ o_tel o = nm.
Proof. exact (@instruments_have_data). Qed.
Print Assumptions C55_data_required.

Example C55_data_required_ex x : params_ok (exl_h x) exl_ps /\ (exists r, initialize_posterior exs_sort (exs_P x ["a"; "b"]) false (exl_h x) = Ok r) /\ In "b" (P_instnames (exs_P x ["a"; "b"])).
Proof. split; [apply exs_params|]. split; [apply exs_ok|]. cbn; auto. Qed.

(** Which error the first instrument without data raises. *)
Theorem C55_missing_data : forall argsort P h pre nm post,
  params_ok h (P_params P) -> b_name (ps_basis (P_params P)) = P_fitting_basis P ->
  (forall k, In k (dkeys (ps_items (P_params P))) -> ~ logjit_key k) ->
  (forall k, In k (dkeys (ps_items (P_params P))) -> exists p b, get_param h (ps_items (P_params P)) k = Some p /\ p_vary p = VBool b) ->
  P_hnames P = None -> P_instnames P = (pre ++ nm :: post)%list ->
  (forall n, In n pre -> has_rows P n /\ In ("gamma_" ++ n) (dkeys (ps_items (P_params P))) /\ In ("jit_" ++ n) (dkeys (ps_items (P_params P)))) ->
  ~ has_rows P nm -> initialize_posterior argsort P false h = Err AssertionError.
Proof. exact (@missing_data). Qed.
Print Assumptions C55_missing_data.

Example C55_missing_data_ex x : initialize_posterior exs_sort (exs_P x ["a"; "z"; "b"]) false (exl_h x) = Err AssertionError.
Proof.
  apply (C55_missing_data exs_sort (exs_P x ["a"; "z"; "b"]) (exl_h x) ["a"] "z" ["b"]); try reflexivity.
  - apply exs_params.
  - apply exs_nolog.
  - apply exs_stor.
  - intros n [<-|[]]. split; [apply exs_rows; now left|]. cbn; tauto.
  - intros (o & Ho & E). cbn in Ho. decompose [or] Ho; try contradiction; subst o; discriminate E.
Qed.

(** Offset and jitter of each instrument come from the setup file. *)
Theorem C55_offset_required : forall (argsort : list R -> list nat), (forall x, Permutation (argsort x) (seq 0 (length x))) ->
  forall P decorr h r nm,
  params_ok h (P_params P) -> (forall k, In k (dkeys (ps_items (P_params P))) -> ~ logjit_key k) ->
    initialize_posterior argsort P decorr h = Ok r -> In nm (P_instnames P) ->
    In ("gamma_" ++ nm) (dkeys (ps_items (P_params P))) /\ In ("jit_" ++ nm) (dkeys (ps_items (P_params P))).
Proof. exact (@offset_required). Qed.
Print Assumptions C55_offset_required.

(** One likelihood per named instrument, in the order of the names. *)
Theorem C55_one_likelihood : forall (argsort : list R -> list nat), (forall x, Permutation (argsort x) (seq 0 (length x))) ->
  forall P decorr h r,
  params_ok h (P_params P) -> initialize_posterior argsort P decorr h = Ok r ->
    NoDup (dkeys (i_likes r)) /\ (forall nm, In nm (dkeys (i_likes r)) <-> In nm (P_instnames P)) /\
    (NoDup (P_instnames P) -> dkeys (i_likes r) = P_instnames P).
Proof. exact (@one_likelihood). Qed.
Print Assumptions C55_one_likelihood.

Example C55_one_likelihood_ex x : exists r, initialize_posterior exs_sort (exs_P x ["a"; "b"]) false (exl_h x) = Ok r /\ dkeys (i_likes r) = ["a"; "b"].
Proof.
  destruct (exs_ok x) as [r E]. exists r. split; [exact E|].
  apply (C55_one_likelihood exs_sort exs_sort_perm (exs_P x ["a"; "b"]) false (exl_h x) r (exs_params x) E). apply nodup_strings. reflexivity.
Qed.

(** Each likelihood is made of all rows of its instrument and no others, in the order of the
    file (sorted by time for celerite), with that instrument's offset and jitter. *)
Theorem C55_own_rows : forall (argsort : list R -> list nat), (forall x, Permutation (argsort x) (seq 0 (length x))) ->
  forall P decorr h r nm ty l,
  params_ok h (P_params P) -> initialize_posterior argsort P decorr h = Ok r -> dget (i_likes r) nm = Some (ty, l) ->
    exists rows, own_rows nm (P_data P) rows /\ rows <> [] /\ Permutation (measured l) (triples rows) /\
      ((forall hn, ty <> CeleriteLike hn) -> l_x l = map o_time rows /\ l_y l = map o_vel rows /\ l_yerr l = map o_err rows) /\
      l_gamma l = "gamma_" ++ nm /\ l_jit l = "jit_" ++ nm /\ l_suffix l = nm /\ l_telvec l = map (fun _ => nm) rows.
Proof. exact (@own_rows_only). Qed.
Print Assumptions C55_own_rows.

Example C55_own_rows_ex x : own_rows "a" (P_data (exs_P x ["a"; "b"])) [exs_obs x "a" 20; exs_obs x "a" 29].
Proof. repeat (apply own_take; [reflexivity|] || (apply own_skip; [discriminate|])). apply own_nil. Qed.

(** Which likelihood class an instrument gets. *)
Theorem C55_class : forall (argsort : list R -> list nat), (forall x, Permutation (argsort x) (seq 0 (length x))) ->
  forall P decorr h r nm ty l,
  params_ok h (P_params P) -> initialize_posterior argsort P decorr h = Ok r -> dget (i_likes r) nm = Some (ty, l) ->
    match P_hnames P with
    | None => ty = RVLike
    | Some hn => exists names, dget hn nm = Some names /\
        match P_kernel_name P with
        | None => ty = GPLike "QuasiPer" names
        | Some kn => exists k, dget kn nm = Some k /\ (k = "Celerite" -> ty = CeleriteLike names) /\ (k <> "Celerite" -> ty = GPLike k names)
        end
    end.
Proof. exact (@class_chosen). Qed.
Print Assumptions C55_class.

(** A result means that every kernel got all the hyper-parameters it needs, and, if none is
    named twice, no others (celerite kernels accept more). *)
Theorem C55_hyper_required : forall (argsort : list R -> list nat) P decorr h r nm ty l,
  initialize_posterior argsort P decorr h = Ok r -> dget (i_likes r) nm = Some (ty, l) ->
    match ty with
    | RVLike => True
    | GPLike k names => k <> "Celerite" /\ hyper_given k names /\ (NoDup names -> exists pres, In (k, pres) HYPER /\ length names = length pres)
    | CeleriteLike names => hyper_given "Celerite" names
    end.
Proof. exact (@hyper_required). Qed.
Print Assumptions C55_hyper_required.

Example C55_hyper_required_ex x :
  (exists r l, initialize_posterior exs_sort (exs_PG x "a") false (fst (exs_gp x)) = Ok r /\
     dget (i_likes r) "a" = Some (CeleriteLike ["gp_B"; "gp_C"; "gp_L"; "gp_Prot"], l)) /\
  (exists r l, initialize_posterior exs_sort (exs_PG x "b") false (fst (exs_gp x)) = Ok r /\
     dget (i_likes r) "b" = Some (GPLike "Per" ["gp_length"; "gp_amp_b"; "gp_per"], l)).
Proof. apply exs_gp_ok. Qed.

(** Decorrelation coefficients: one per variable, none for likelihoods with a kernel. *)
Theorem C55_decorr_terms : forall (argsort : list R -> list nat), (forall x, Permutation (argsort x) (seq 0 (length x))) ->
  forall P decorr h r nm ty l,
  params_ok h (P_params P) -> initialize_posterior argsort P decorr h = Ok r -> dget (i_likes r) nm = Some (ty, l) ->
    exists vars, (if decorr then P_decorr_vars P = Some vars else vars = []) /\
      l_decorr l = match ty with RVLike => map (fun v => "c1_" ++ v ++ "_" ++ nm) vars | _ => [] end.
Proof. exact (@decorr_terms). Qed.
Print Assumptions C55_decorr_terms.

(** The composite likelihood has each row of the named instruments once. Rows of
    instruments not named are left out without a message. *)
Theorem C55_composite : forall (argsort : list R -> list nat), (forall x, Permutation (argsort x) (seq 0 (length x))) ->
  forall P decorr h r,
  params_ok h (P_params P) -> initialize_posterior argsort P decorr h = Ok r -> NoDup (P_instnames P) ->
    Permutation (combine (cp_x (i_comp r)) (cp_yerr (i_comp r)))
                (map (fun o => (o_time o, o_err o)) (filter (listed (P_instnames P)) (P_data P))) /\
    length (cp_x (i_comp r)) = length (filter (listed (P_instnames P)) (P_data P)) /\
    length (cp_yerr (i_comp r)) = length (filter (listed (P_instnames P)) (P_data P)).
Proof. exact (@composite_rows). Qed.
Print Assumptions C55_composite.

Example C55_composite_ex x : filter (listed ["a"; "b"]) (P_data (exs_P x ["a"; "b"])) = [exs_obs x "a" 20; exs_obs x "b" 23; exs_obs x "a" 29].
Proof. reflexivity. Qed.

(** The parameters of the setup file are in the result unchanged; only decorrelation
    coefficients are added. *)
Theorem C55_params_kept : forall (argsort : list R -> list nat), (forall x, Permutation (argsort x) (seq 0 (length x))) ->
  forall P decorr h r,
  params_ok h (P_params P) -> (forall k, In k (dkeys (ps_items (P_params P))) -> ~ logjit_key k) ->
    initialize_posterior argsort P decorr h = Ok r -> keeps_params h (ps_items (P_params P)) (i_heap r) (ps_items (i_params r)) /\
    (forall k, In k (dkeys (ps_items (i_params r))) -> In k (dkeys (ps_items (P_params P))) \/
       exists v nm vars, decorr = true /\ P_decorr_vars P = Some vars /\ In v vars /\ In nm (P_instnames P) /\ k = "c1_" ++ v ++ "_" ++ nm).
Proof. exact (@params_kept). Qed.
Print Assumptions C55_params_kept.

(** A deprecated logjit parameter that is not the last entry is not converted: the loop
    raises because the dictionary changed under its iterator. *)
Theorem C55_logjit_refuted : forall (argsort : list R -> list nat) P decorr h pre k k2 post p x,
  b_name (ps_basis (P_params P)) = P_fitting_basis P ->
    (decorr = true -> P_decorr_vars P <> None) ->
    dkeys (ps_items (P_params P)) = (pre ++ k :: k2 :: post)%list -> (forall k', In k' pre -> ~ logjit_key k') -> logjit_key k ->
    get_param h (ps_items (P_params P)) k = Some p -> p_value p = Some x ->
    initialize_posterior argsort P decorr h = Err RuntimeError.
Proof. exact (@logjit_breaks). Qed.
Print Assumptions C55_logjit_refuted.

Example C55_logjit_refuted_ex x : initialize_posterior exs_sort (exs_PL x false) false (fst (exs_log x false)) = Err RuntimeError.
Proof. apply (C55_logjit_refuted exs_sort (exs_PL x false) false _ [] "logjit_a" "per1" ["tp1"; "e1"; "w1"; "k1"; "gamma_a"] (mkParam (Some (x 0%nat)) (VBool true) None false) (x 0%nat)); try reflexivity; try discriminate; [intros k []|now exists "_a"]. Qed.

(** As the last entry it becomes jit = exp(logjit) with the same vary flag, and everything
    else stays. Missing from the full claim: any other place in the dictionary
    (C55_logjit_refuted), and the mcmcscale and linear attributes, which are reset. *)
Theorem C55_logjit_partial : forall (argsort : list R -> list nat), (forall x, Permutation (argsort x) (seq 0 (length x))) ->
  forall P decorr h r pre k p,
  params_ok h (P_params P) ->
    dkeys (ps_items (P_params P)) = (pre ++ [k])%list -> (forall k', In k' pre -> ~ logjit_key k') -> logjit_key k ->
    get_param h (ps_items (P_params P)) k = Some p -> initialize_posterior argsort P decorr h = Ok r ->
    exists x, p_value p = Some x /\
      get_param (i_heap r) (ps_items (i_params r)) (replace_logjit k) = Some (mkParam (Some (exp x)) (p_vary p) None false) /\
      ~ In k (dkeys (ps_items (i_params r))) /\
      (forall k' q, k' <> k -> k' <> replace_logjit k -> get_param h (ps_items (P_params P)) k' = Some q ->
         get_param (i_heap r) (ps_items (i_params r)) k' = Some q).
Proof. exact (@logjit_converted). Qed.
Print Assumptions C55_logjit_partial.

Example C55_logjit_partial_ex x : params_ok (fst (exs_log x true)) (P_params (exs_PL x true)) /\
  (exists r, initialize_posterior exs_sort (exs_PL x true) false (fst (exs_log x true)) = Ok r) /\
  dkeys (ps_items (P_params (exs_PL x true))) = (["per1"; "tp1"; "e1"; "w1"; "k1"; "gamma_a"] ++ ["logjit_a"])%list /\ logjit_key "logjit_a".
Proof. split; [apply exs_log_params|]. split; [apply exs_log_ok|]. split; [reflexivity|now exists "_a"]. Qed.

(** The new name. *)
Theorem C55_logjit_name : forall s,
  ~ contains "logjit" s -> replace_logjit ("logjit" ++ s) = "jit" ++ s.
Proof. exact (@replace_key). Qed.
Print Assumptions C55_logjit_name.

Example C55_logjit_name_ex : replace_logjit "logjit_hires_j" = "jit_hires_j".
Proof. reflexivity. Qed.

(** No deprecated name is left in a result. *)
Theorem C55_logjit_gone : forall (argsort : list R -> list nat), (forall x, Permutation (argsort x) (seq 0 (length x))) ->
  forall P decorr h r,
  params_ok h (P_params P) -> initialize_posterior argsort P decorr h = Ok r ->
    forall k, In k (dkeys (ps_items (i_params r))) -> ~ logjit_key k.
Proof. exact (@no_logjit_left). Qed.
Print Assumptions C55_logjit_gone.

(** A result means that at most one logjit parameter was present, in the last place. *)
Theorem C55_logjit_last : forall (argsort : list R -> list nat), (forall x, Permutation (argsort x) (seq 0 (length x))) ->
  forall P decorr h r k,
  params_ok h (P_params P) -> initialize_posterior argsort P decorr h = Ok r ->
    In k (dkeys (ps_items (P_params P))) -> logjit_key k -> exists pre, dkeys (ps_items (P_params P)) = (pre ++ [k])%list /\ forall k', In k' pre -> ~ logjit_key k'.
Proof. exact (@only_last_logjit). Qed.
Print Assumptions C55_logjit_last.

(** Without kernels the result is the one of constructing the likelihoods one after the
    other from the instruments' rows and joining them, so C17 to C21 and C51 apply to it. *)
Theorem C55_builds : forall (argsort : list R -> list nat), (forall x, Permutation (argsort x) (seq 0 (length x))) ->
  forall P decorr h r,
  params_ok h (P_params P) -> P_hnames P = None -> NoDup (P_instnames P) -> initialize_posterior argsort P decorr h = Ok r ->
    exists vars h0 ps0 vec ds ls, 
      (if decorr then P_decorr_vars P = Some vars else vars = []) /\ params_ok h0 ps0 /\
      vector_init h0 ps0 = Ok vec /\ map_res (inst_data P decorr vars) (P_instnames P) = Ok ds /\
      build_likes h0 ps0 vec ds = Ok (i_heap r, i_params r, i_vector r, ls) /\
      map (fun x => snd (snd x)) (i_likes r) = ls /\
      composite_init (i_heap r) (v_vector (i_vector r)) (map (fun l => mkCM l (ps_items (i_params r)) 0) ls) = Ok (i_comp r).
Proof. exact (@builds). Qed.
Print Assumptions C55_builds.

(** When it succeeds, and that the array then holds the values and vary flags of the setup
    file. *)
Theorem C55_complete : forall (argsort : list R -> list nat) P h,
  params_ok h (P_params P) -> b_name (ps_basis (P_params P)) = P_fitting_basis P ->
    (forall k, In k (dkeys (ps_items (P_params P))) -> ~ logjit_key k) ->
    (forall k, In k (dkeys (ps_items (P_params P))) -> exists p b, get_param h (ps_items (P_params P)) k = Some p /\ p_vary p = VBool b) ->
    P_hnames P = None -> P_instnames P <> [] ->
    (forall nm, In nm (P_instnames P) -> has_rows P nm /\ In ("jit_" ++ nm) (dkeys (ps_items (P_params P))) /\
       exists p x, get_param h (ps_items (P_params P)) ("gamma_" ++ nm) = Some p /\ p_value p = Some x) ->
    exists r, initialize_posterior argsort P false h = Ok r /\ ps_items (i_params r) = ps_items (P_params P) /\
      forall k i p, get_param h (ps_items (P_params P)) k = Some p -> dget (v_indices (i_vector r)) k = Some i ->
        exists row, nth_error (v_vector (i_vector r)) i = Some row /\ r_val row = p_value p /\ p_vary p = VBool (r_vary row).
Proof. exact (@complete). Qed.
Print Assumptions C55_complete.

Example C55_complete_ex x : exists r, initialize_posterior exs_sort (exs_P x ["a"; "b"]) false (exl_h x) = Ok r.
Proof. apply exs_ok. Qed.

(** The same with Gaussian processes: if every instrument has a kernel, one name for each of its hyper-parameters, and these
    are parameters. *)
Theorem C55_complete_gp : forall (argsort : list R -> list nat) P h,
  params_ok h (P_params P) -> b_name (ps_basis (P_params P)) = P_fitting_basis P ->
    (forall k, In k (dkeys (ps_items (P_params P))) -> ~ logjit_key k) ->
    (forall k, In k (dkeys (ps_items (P_params P))) -> exists p b, get_param h (ps_items (P_params P)) k = Some p /\ p_vary p = VBool b) ->
    P_instnames P <> [] ->
    (forall nm, In nm (P_instnames P) -> has_rows P nm /\ process_for P nm /\ In ("jit_" ++ nm) (dkeys (ps_items (P_params P))) /\
       exists p x, get_param h (ps_items (P_params P)) ("gamma_" ++ nm) = Some p /\ p_value p = Some x) ->
    exists r, initialize_posterior argsort P false h = Ok r /\ ps_items (i_params r) = ps_items (P_params P) /\
      forall k i p, get_param h (ps_items (P_params P)) k = Some p -> dget (v_indices (i_vector r)) k = Some i ->
        exists row, nth_error (v_vector (i_vector r)) i = Some row /\ r_val row = p_value p /\ p_vary p = VBool (r_vary row).
Proof. exact (@complete_gp). Qed.
Print Assumptions C55_complete_gp.

Example C55_complete_gp_ex x : exists r, initialize_posterior exs_sort (exs_P2 x) false (fst (exs_gp x)) = Ok r /\ ps_items (i_params r) = ps_items (snd (exs_gp x)).
Proof. apply exs_gp_complete. Qed.

(** Hyper-parameters for some of the instruments only are refused. *)
Theorem C55_mixed_refused : forall (argsort : list R -> list nat), (forall x, Permutation (argsort x) (seq 0 (length x))) ->
  forall P decorr h hn nm, params_ok h (P_params P) -> P_hnames P = Some hn -> In nm (P_instnames P) -> dget hn nm = None ->
  forall r, initialize_posterior argsort P decorr h <> Ok r.
Proof. exact mixed_refused. Qed.
Print Assumptions C55_mixed_refused.

Example C55_mixed_refused_ex x r : initialize_posterior exs_sort (exs_P3 x) false (fst (exs_gp x)) <> Ok r.
Proof. apply (C55_mixed_refused exs_sort exs_sort_perm _ _ _ [("b", ["gp_length"; "gp_amp_b"; "gp_per"])] "a"); try reflexivity; [apply exs_gp_params|cbn; tauto]. Qed.

(** The same with decorrelation: the rows of every instrument have the columns, and no coefficient is among the parameters. *)
Theorem C55_complete_decorr : forall (argsort : list R -> list nat) P h vars,
  params_ok h (P_params P) -> b_name (ps_basis (P_params P)) = P_fitting_basis P ->
    (forall k, In k (dkeys (ps_items (P_params P))) -> ~ logjit_key k) ->
    (forall k, In k (dkeys (ps_items (P_params P))) -> exists p b, get_param h (ps_items (P_params P)) k = Some p /\ p_vary p = VBool b) ->
    P_hnames P = None -> P_decorr_vars P = Some vars -> P_instnames P <> [] ->
    (forall s, ~ In ("c1_" ++ s) (dkeys (ps_items (P_params P)))) ->
    (forall nm, In nm (P_instnames P) -> has_rows P nm /\ has_columns P vars nm /\ In ("jit_" ++ nm) (dkeys (ps_items (P_params P))) /\
       exists p x, get_param h (ps_items (P_params P)) ("gamma_" ++ nm) = Some p /\ p_value p = Some x) ->
    exists r, initialize_posterior argsort P true h = Ok r.
Proof. exact complete_decorr. Qed.
Print Assumptions C55_complete_decorr.

Example C55_complete_decorr_ex x : exists r, initialize_posterior exs_sort (exd_P x exl_ps) true (exl_h x) = Ok r.
Proof. apply exd_complete. Qed.

(** A setup file that declares a decorrelation coefficient of its first instrument, to give it a starting value, raises
    IndexError: the coefficient has no place in the array yet is counted in its length. *)
Theorem C55_declared_refuted : forall (argsort : list R -> list nat) P h vars nm rest v,
  params_ok h (P_params P) -> b_name (ps_basis (P_params P)) = P_fitting_basis P ->
    (forall k, In k (dkeys (ps_items (P_params P))) -> ~ logjit_key k) ->
    (forall k, In k (dkeys (ps_items (P_params P))) -> exists p b, get_param h (ps_items (P_params P)) k = Some p /\ p_vary p = VBool b) ->
    P_hnames P = None -> P_decorr_vars P = Some vars -> P_instnames P = nm :: rest -> has_rows P nm -> has_columns P vars nm ->
    In v vars -> In ("c1_" ++ v ++ "_" ++ nm) (dkeys (ps_items (P_params P))) ->
    initialize_posterior argsort P true h = Err IndexError.
Proof. exact declared. Qed.
Print Assumptions C55_declared_refuted.

Example C55_declared_refuted_ex x : initialize_posterior exs_sort (exd_P x (snd (exd_decl x))) true (fst (exd_decl x)) = Err IndexError.
Proof.
  apply (C55_declared_refuted exs_sort (exd_P x (snd (exd_decl x))) (fst (exd_decl x)) ["bis"; "fwhm"] "a" ["b"] "bis"); try reflexivity.
  - apply exd_decl_params.
  - apply exd_decl_nolog.
  - apply exd_decl_stor.
  - apply exd_rows. cbn; tauto.
  - apply exd_columns.
  - cbn; tauto.
  - cbn; tauto.
Qed.

(** With Gaussian processes decorrelation is asked for in vain: the result is the one without it. *)
Theorem C55_gp_ignores_decorr : forall (argsort : list R -> list nat) P h vars,
  P_hnames P <> None -> P_decorr_vars P = Some vars -> (forall nm, In nm (P_instnames P) -> has_columns P vars nm) ->
  initialize_posterior argsort P true h = initialize_posterior argsort P false h.
Proof. exact ignored. Qed.
Print Assumptions C55_gp_ignores_decorr.

Example C55_gp_ignores_decorr_ex x : initialize_posterior exs_sort (exd_gp x) true (fst (exs_gp x)) = initialize_posterior exs_sort (exd_gp x) false (fst (exs_gp x)).
Proof. apply (C55_gp_ignores_decorr _ _ _ ["bis"; "fwhm"]); [discriminate|reflexivity|]. intros nm _. apply exd_gp_columns. Qed.
