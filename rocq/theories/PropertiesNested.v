(** Property theorems C29, C56-C58: the nested sampling driver. *)
From Coq Require Import Reals String ZArith Bool List.
From Verif Require Import Py PyFacts PyFloat Mass Nested NestedProofs.
Import ListNotations.
Open Scope string_scope.


(** * C29 *)
(** Nothing is run, written, or changed; the call raises before any package is reached
    (the outcome does not depend on ps). *)
Theorem C29_guard : forall ps post d sampler sk rk w,
  np_check post = Ok tt -> exists_path w (results_path d) = true ->
  run ps post (Some d) false false sampler sk rk w = mkOut w sk rk (Err FileExistsError).
Proof. exact run_guard. Qed.
Print Assumptions C29_guard.

Example C29_guard_ex : np_check post1 = Ok tt /\ exists_path (mkWorld (fun p => if String.eqb p "out/results.hdf5" then Some (FOther 1) else None) (fun p => String.eqb p "out")) (results_path "out") = true.
Proof. split; reflexivity. Qed.

Theorem C29_improper : forall ps post out overwrite proceed sampler sk rk w e,
  np_check post = Err e ->
  run ps post out overwrite proceed sampler sk rk w = mkOut w sk rk (Err e).
Proof. exact run_improper. Qed.
Print Assumptions C29_improper.

Example C29_improper_ex : np_check (mkNsPost (Err ValueError) (Ok ["k1"]) (fun _ => Ok (Fin 0))) = Err ValueError.
Proof. reflexivity. Qed.

Theorem C29_unknown : forall ps post out overwrite proceed sampler sk rk w,
  np_check post = Ok tt ->
  ~ In (lower sampler) known ->
  exists e, run ps post out overwrite proceed sampler sk rk w = mkOut w sk rk (Err e) /\ (e = ValueError \/ e = FileExistsError).
Proof. exact run_unknown. Qed.
Print Assumptions C29_unknown.

Example C29_unknown_ex : np_check post1 = Ok tt /\ ~ In (lower "Emcee") known /\ In (lower "MultiNest") known.
Proof. split; [reflexivity|]. split; cbn; intuition discriminate. Qed.

(** None and empty dictionaries are left as they are. Missing from the full claim
    (see C29_kwargs_refuted): a non-empty dictionary is changed. *)
Theorem C29_kwargs_partial : forall ps post out overwrite proceed sampler sk rk w,
  (sk = None \/ sk = Some [] -> o_sk (run ps post out overwrite proceed sampler sk rk w) = sk) /\
  (rk = None \/ rk = Some [] -> o_rk (run ps post out overwrite proceed sampler sk rk w) = rk).
Proof. exact run_callers. Qed.
Print Assumptions C29_kwargs_partial.

Example C29_kwargs_partial_ex : exists r, o_res (run quiets post1 None false false "Dynesty-Static" None (Some []) empty_world) = Ok r.
Proof. eexists. reflexivity. Qed.

(** Only the keys listed in managed can change. *)
Theorem C29_kwargs_managed_partial : forall ps post out overwrite proceed sampler sk rk w k,
  ~ In k managed ->
  (forall d, sk = Some d -> exists d', o_sk (run ps post out overwrite proceed sampler sk rk w) = Some d' /\ dget d' k = dget d k) /\
  (forall d, rk = Some d -> exists d', o_rk (run ps post out overwrite proceed sampler sk rk w) = Some d' /\ dget d' k = dget d k).
Proof. exact run_callers_managed. Qed.
Print Assumptions C29_kwargs_managed_partial.

Example C29_kwargs_managed_partial_ex : ~ In "maxiter" managed.
Proof. cbn. intuition discriminate. Qed.

(** With dynesty and a non-empty run_kwargs, the dictionary is always changed, and using it
    again always raises. *)
Theorem C29_second_call : forall ps post out overwrite proceed sampler sk rk w,
  np_check post = Ok tt -> dynesty_name sampler ->
  rk <> [] -> dmem rk "resume" = false ->
  (forall d, out = Some d -> exists_path w (results_path d) && negb (overwrite || proceed) = false) ->
  let o := run ps post out overwrite proceed sampler sk (Some rk) w in
  o_rk o <> Some rk /\
  forall ps' w', exists e, run ps' post out overwrite proceed sampler (o_sk o) (o_rk o) w' = mkOut w' (o_sk o) (o_rk o) (Err e) /\
    (e = ValueError \/ e = FileExistsError).
Proof. exact dynesty_second_call. Qed.
Print Assumptions C29_second_call.

Example C29_second_call_ex : np_check post1 = Ok tt /\ dynesty_name "Dynesty-Dynamic" /\ [("maxiter", POther 10)] <> [] /\ dmem [("maxiter", POther 10)] "resume" = false.
Proof. split; [reflexivity|]. split; [right; reflexivity|]. split; [discriminate|reflexivity]. Qed.

Theorem C29_kwargs_refuted : let rk := Some [("maxiter", POther 10)] in
  let o := run quiets post1 None false false "dynesty-static" None rk empty_world in
  (exists r, o_res o = Ok r) /\ o_rk o <> rk /\
  o_res (run quiets post1 None false false "dynesty-static" None (o_rk o) empty_world) = Err ValueError.
Proof. exact caller_changed. Qed.
Print Assumptions C29_kwargs_refuted.

(** * C56 *)
(** load_results of the file written by run gives what run returned. *)
Theorem C56_saved : forall ps post d overwrite proceed sampler sk rk w r,
  o_res (run ps post (Some d) overwrite proceed sampler sk rk w) = Ok r ->
  load_results (o_w (run ps post (Some d) overwrite proceed sampler sk rk w)) (results_path d) = Ok r.
Proof. exact run_saves. Qed.
Print Assumptions C56_saved.

Example C56_saved_ex : exists r, o_res (run quiets post1 (Some "out") false false "multinest" None None empty_world) = Ok r.
Proof. eexists. reflexivity. Qed.

(** The evidence and its error are the back end's; the table has one row per sample, the
    sample's values followed by the log-probability at them; no other file is written after
    the back end returned. *)
Theorem C56_contents : forall ps post out overwrite proceed sampler sk rk w r,
  o_res (run ps post out overwrite proceed sampler sk rk w) = Ok r ->
  exists s ns, dispatch ps post sampler out (overwrite || proceed) proceed (or_new sk) (mkSt w (or_new sk) (or_new rk)) = (s, Ok ns) /\
    r_lnZ r = ns_lnZ ns /\ r_lnZerr r = ns_lnZerr ns /\
    (forall p, (forall d, out = Some d -> p <> results_path d) -> w_files (o_w (run ps post out overwrite proceed sampler sk rk w)) p = w_files (s_w s) p) /\
    exists names, np_names post = Ok names /\ f_cols (r_samples r) = (names ++ ["lnprobability"])%list /\
      Forall2 (fun x row => length x = length names /\ exists lp, np_logprob post x = Ok lp /\ row = (map Fin x ++ [lp])%list) (ns_samples ns) (f_rows (r_samples r)).
Proof. exact run_frame. Qed.
Print Assumptions C56_contents.

Example C56_contents_ex : exists r, o_res (run quiets post1 (Some "out") false false "ultranest" None None empty_world) = Ok r.
Proof. eexists. reflexivity. Qed.

(** * C57 *)
(** All back ends but MultiNest. Missing: MultiNest removes ./tmpdir (C57_untouched_refuted). *)
Theorem C57_untouched_partial : forall ps post overwrite proceed sampler sk rk w,
  harmless (p_static ps) -> harmless (p_dynamic ps) -> harmless (p_ultranest ps) -> harmless (p_nautilus ps) ->
  lower sampler <> "multinest" -> lower sampler <> "pymultinest" ->
  o_w (run ps post None overwrite proceed sampler sk rk w) = w.
Proof. exact no_output_still. Qed.
Print Assumptions C57_untouched_partial.

Example C57_untouched_partial_ex : harmless (p_static quiets) /\ harmless (p_nautilus quiets) /\ lower "Nautilus" <> "multinest".
Proof. split; [repeat split|]. split; [repeat split|discriminate]. Qed.

Theorem C57_multinest_removes : forall ps post overwrite proceed sampler sk rk w r,
  lower sampler = "multinest" \/ lower sampler = "pymultinest" ->
  o_res (run ps post None overwrite proceed sampler sk rk w) = Ok r ->
  forall p, inside "tmpdir" p = true -> w_files (o_w (run ps post None overwrite proceed sampler sk rk w)) p = None.
Proof. exact multinest_removes. Qed.
Print Assumptions C57_multinest_removes.

Example C57_multinest_removes_ex : lower "PyMultiNest" = "pymultinest" /\ inside "tmpdir" "tmpdir/notes.txt" = true.
Proof. split; reflexivity. Qed.

Theorem C57_untouched_refuted : w_files notes_world "tmpdir/notes.txt" = Some (FOther 7) /\
  let o := run quiets post1 None false false "multinest" None None notes_world in
  (exists r, o_res o = Ok r) /\ w_files (o_w o) "tmpdir/notes.txt" = None /\ w_dirs (o_w o) "tmpdir" = false.
Proof. exact tmpdir_lost. Qed.
Print Assumptions C57_untouched_refuted.

(** * C58 *)
(** With dynesty and overwrite or proceed, a directory that exists but has no sampler.save
    always makes the run fail. *)
Theorem C58_dynesty_refuses : forall ps post d proceed overwrite sampler sk rk w,
  np_check post = Ok tt -> dynesty_name sampler ->
  overwrite || proceed = true -> harmless (p_static ps) -> harmless (p_dynamic ps) -> 
  w_dirs w d = true -> exists_path w (join d "sampler.save") = false ->
  o_w (run ps post (Some d) overwrite proceed sampler sk rk w) = w /\
  exists e, o_res (run ps post (Some d) overwrite proceed sampler sk rk w) = Err e.
Proof. exact dynesty_existing_dir. Qed.
Print Assumptions C58_dynesty_refuses.

Example C58_dynesty_refuses_ex : np_check post1 = Ok tt /\ dynesty_name "dynesty-static" /\ harmless (p_static quiets) /\ harmless (p_dynamic quiets).
Proof. split; [reflexivity|]. split; [left; reflexivity|]. split; repeat split. Qed.

Theorem C58_overwrite_refuted : let w := mkWorld (fun p => if String.eqb p "out/results.hdf5" then Some (FOther 1) else None) (fun p => String.eqb p "out") in
  o_res (run quiets post1 (Some "out") true false "dynesty-static" None None w) = Err FileExistsError /\
  (exists r, o_res (run quiets post1 (Some "out") true false "multinest" None None w) = Ok r).
Proof. exact overwrite_refused. Qed.
Print Assumptions C58_overwrite_refuted.
