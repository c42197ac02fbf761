(** Property theorems C60, C61: the pipeline commands. *)
From Coq Require Import String Ascii Arith Bool List.
From Verif Require Import Py Mass Status StatusProofs StatusSpec Pipeline PipelineSpec PipelineProofs PipelineSim PipelineThms.
Import ListNotations.
Open Scope string_scope.

(** * C60 *)
(** Any session behaves like the state machine of PipelineSpec: the commands with their files
    and status texts return and raise what the machine says. *)
Theorem C60_refines : forall q l k, path_ok q -> Forall cmd_ok l -> cmd_ok k ->
  snd (exec q k (session q l empty_world)) = snd (step k (steps l start)).
Proof. exact (fun q l k Q F => @exec_step q Q l F k). Qed.
Print Assumptions C60_refines.

Example C60_refines_ex : snd (exec "K2" (Report "auto" ok) (session "K2" l_stale empty_world)) = Err PlainException.
Proof. rewrite C60_refines; [reflexivity|exact path_k2|apply l_ok; cbn; auto|exact I]. Qed.

(** Fit and nested sampling need nothing. *)
Theorem C60_fit_always : forall q l n, path_ok q -> Forall cmd_ok l -> snd (fit q n ok ok (session q l empty_world)) = ok.
Proof. exact (fun q l n Q F => @c60_fit q Q l F n). Qed.
Print Assumptions C60_fit_always.

Example C60_fit_always_ex : snd (fit "K2" 9 ok ok (session "K2" l_mixed empty_world)) = ok.
Proof. apply C60_fit_always; [exact path_k2|apply l_ok; cbn; auto]. Qed.

Theorem C60_ns_always : forall q l n kw, path_ok q -> Forall cmd_ok l -> kw_ok kw -> snd (nested q n ok ok kw (session q l empty_world)) = ok.
Proof. exact (fun q l n kw Q F => @c60_ns q Q l F n kw). Qed.
Print Assumptions C60_ns_always.

Example C60_ns_always_ex : snd (nested "K2" 9 ok ok [] (session "K2" l_stale empty_world)) = ok.
Proof. apply C60_ns_always; [exact path_k2|apply l_ok; cbn; auto|constructor]. Qed.

(** Mcmc works exactly after a fit; without one it raises (the branch of the code that would start
    from the setup file is not reached). *)
Theorem C60_mcmc_needs_fit : forall q l n x, path_ok q -> Forall cmd_ok l -> (forall k, val_ok (x k)) ->
  (fit_done l -> snd (mcmc q n ok ok x (session q l empty_world)) = ok) /\
  (~ fit_done l -> snd (mcmc q n ok ok x (session q l empty_world)) = Err PlainException).
Proof. exact (fun q l n x Q F => @c60_mcmc q Q l F n x). Qed.
Print Assumptions C60_mcmc_needs_fit.

Example C60_mcmc_needs_fit_ex :
  snd (mcmc "K2" 9 ok ok xs (session "K2" l_refit empty_world)) = ok /\
  snd (mcmc "K2" 9 ok ok xs (session "K2" [Fit 1 ok (Err PlainException); Nested 2 ok ok []] empty_world)) = Err PlainException.
Proof.
  split.
  - apply C60_mcmc_needs_fit; [exact path_k2|apply l_ok; cbn; auto|exact xs_ok|]. exists 1. cbn; auto.
  - apply C60_mcmc_needs_fit; [exact path_k2|repeat constructor|exact xs_ok|]. intros (n & H). cbn in H. intuition discriminate.
Qed.

(** The same of the model comparison and of plots. *)
Theorem C60_ic_needs_fit : forall q l t, path_ok q -> Forall cmd_ok l -> val_ok t ->
  (fit_done l -> snd (ic q ok ok t (session q l empty_world)) = ok) /\
  (~ fit_done l -> snd (ic q ok ok t (session q l empty_world)) = Err PlainException).
Proof. exact (fun q l t Q F => @c60_ic q Q l F t). Qed.
Print Assumptions C60_ic_needs_fit.

Example C60_ic_needs_fit_ex : snd (ic "K2" ok ok "x" (session "K2" l_refit empty_world)) = ok.
Proof. apply C60_ic_needs_fit; [exact path_k2|apply l_ok; cbn; auto|exact x_ok|]. exists 1. cbn; auto. Qed.

Theorem C60_plots_need_fit : forall q l sampler, path_ok q -> Forall cmd_ok l ->
  (fit_done l -> snd (plots q sampler [] ok (session q l empty_world)) = ok) /\
  (forall ts, ~ fit_done l -> snd (plots q sampler ts ok (session q l empty_world)) = Err PlainException).
Proof. exact (fun q l sampler Q F => @c60_plots q Q l F sampler). Qed.
Print Assumptions C60_plots_need_fit.

Example C60_plots_need_fit_ex : snd (plots "K2" "auto" [PRv] ok (session "K2" [Nested 2 ok ok []] empty_world)) = Err PlainException.
Proof. apply C60_plots_need_fit; [exact path_k2|repeat constructor|]. intros (n & H). cbn in H. intuition discriminate. Qed.

(** Derive and tables work exactly if there are results of the requested sampler, or of any for "auto". *)
Theorem C60_derive_needs_samples : forall q l n sampler stellar, path_ok q -> Forall cmd_ok l ->
  (snd (derive q n sampler ok ok stellar (session q l empty_world)) = ok <-> served sampler l).
Proof. exact (fun q l n sampler st Q F => @c60_derive q Q l F n sampler st). Qed.
Print Assumptions C60_derive_needs_samples.

Theorem C60_tables_need_samples : forall q l sampler, path_ok q -> Forall cmd_ok l ->
  ((exists u, snd (tables q sampler [] ok (session q l empty_world)) = Ok u) <-> served sampler l).
Proof. exact (fun q l sampler Q F => @c60_tables q Q l F sampler). Qed.
Print Assumptions C60_tables_need_samples.

Example C60_samples_ex : served "ns" l_mixed /\ ~ served "ns" l_stale /\ served "auto" l_stale.
Proof.
  split; [|split].
  - right. right. split; [reflexivity|]. exists 3, []. cbn; auto.
  - intros [(H & _)|[(H & _)|(_ & n & kw & H)]]; try discriminate. cbn in H. intuition discriminate.
  - left. split; [reflexivity|]. left. exists [Fit 1 ok ok], [Derive 3 "auto" ok ok true; Mcmc 4 ok ok xs], 2, xs. split; [reflexivity|]. exists 1. cbn; auto.
Qed.

(** The table of the comparison needs a comparison, the plot of derived parameters derived samples. *)
Theorem C60_table_ic : forall q l sampler, path_ok q -> Forall cmd_ok l -> served sampler l ->
  ((exists u, snd (tables q sampler [TIc] ok (session q l empty_world)) = Ok u) <-> ic_done l).
Proof. exact (fun q l sampler Q F => @c60_table_ic q Q l F sampler). Qed.
Print Assumptions C60_table_ic.

Theorem C60_plot_derived : forall q l sampler, path_ok q -> Forall cmd_ok l -> fit_done l ->
  (snd (plots q sampler [PDerived] ok (session q l empty_world)) = ok <-> derive_done l).
Proof. exact (fun q l sampler Q F => @c60_plot_derived q Q l F sampler). Qed.
Print Assumptions C60_plot_derived.

Example C60_plot_derived_ex : snd (plots "K2" "auto" [PDerived] ok (session "K2" l_stale empty_world)) = ok.
Proof.
  apply C60_plot_derived; [exact path_k2|apply l_ok; cbn; auto|exists 1; cbn; auto|].
  exists [Fit 1 ok ok; Mcmc 2 ok ok xs], [Mcmc 4 ok ok xs], 3, "auto". split; [reflexivity|]. left. split; [reflexivity|]. left.
  exists [Fit 1 ok ok], [], 2, xs. split; [reflexivity|]. exists 1. cbn; auto.
Qed.

(** No command ever misses a file. *)
Theorem C60_no_missing_file : forall q l k, path_ok q -> Forall cmd_ok l -> cmd_ok k -> cmd_fair k ->
  snd (exec q k (session q l empty_world)) <> Err FileNotFoundError.
Proof. exact (fun q l k Q F => @c60_no_missing q Q l F k). Qed.
Print Assumptions C60_no_missing_file.

Example C60_no_missing_file_ex : cmd_ok (Tables "auto" [TParams; TIc] ok) /\ cmd_fair (Tables "auto" [TParams; TIc] ok).
Proof. split; [exact I|discriminate]. Qed.

(** A command that computes and raises has changed nothing. *)
Theorem C60_refused_unchanged : forall q l k e, path_ok q -> Forall cmd_ok l -> cmd_ok k -> computing k ->
  let w := session q l empty_world in snd (exec q k w) = Err e -> fst (exec q k w) = w.
Proof. exact (@c60_refused). Qed.
Print Assumptions C60_refused_unchanged.

Example C60_refused_unchanged_ex : let w := session "K2" l_refit empty_world in
  fst (exec "K2" (Derive 4 "ns" ok ok true) w) = w.
Proof.
  intro w. apply (C60_refused_unchanged "K2" l_refit (Derive 4 "ns" ok ok true) ValueError path_k2); [apply l_ok; cbn; auto|exact I|exact I|].
  fold w. unfold w. rewrite C60_refines; [reflexivity|exact path_k2|apply l_ok; cbn; auto|exact I].
Qed.

(** * C61 *)
(** A fit after mcmc replaces the posterior of the samples; derived samples of an earlier
    run, or of the other sampler, are combined with the present samples. *)
Theorem C61_one_run_refuted :
  (exists q l u, path_ok q /\ Forall cmd_ok l /\ snd (tables q "auto" [TPriors; TRv; TCrit] ok (session q l empty_world)) = Ok u /\ p_run (u_post u) <> u_chain u) /\
  (exists q l u d n, path_ok q /\ Forall cmd_ok l /\ snd (tables q "auto" [TParams; TDerived] ok (session q l empty_world)) = Ok u /\ u_derived u = Some (d, n) /\ n <> u_chain u) /\
  (exists q l u d n, path_ok q /\ Forall cmd_ok l /\ snd (tables q "mcmc" [TParams; TDerived] ok (session q l empty_world)) = Ok u /\
     p_derived (u_post u) = None /\ u_derived u = Some (d, n) /\ n <> u_chain u).
Proof. exact c61_refuted. Qed.
Print Assumptions C61_one_run_refuted.

(** Nested sampling: tables are made from its last run, whatever else is run before and after. *)
Theorem C61_ns_partial : forall q l1 l2 n kw, path_ok q -> let l := (l1 ++ Nested n ok ok kw :: l2)%list in
  Forall cmd_ok l -> none may_ns l2 ->
  exists u, snd (tables q "ns" [TParams; TPriors; TRv; TCrit] ok (session q l empty_world)) = Ok u /\ p_run (u_post u) = n /\ u_chain u = n.
Proof. exact (fun q l1 l2 n kw Q => @c61_ns_ok q Q l1 l2 n kw). Qed.
Print Assumptions C61_ns_partial.

Example C61_ns_partial_ex : exists u, snd (tables "K2" "ns" [TParams; TPriors; TRv; TCrit] ok
  (session "K2" [Nested 1 ok ok []; Nested 2 ok ok []; Fit 3 ok ok; Mcmc 4 ok ok xs] empty_world)) = Ok u /\ p_run (u_post u) = 2 /\ u_chain u = 2.
Proof.
  apply (C61_ns_partial "K2" [Nested 1 ok ok []] [Fit 3 ok ok; Mcmc 4 ok ok xs] 2 [] path_k2).
  - repeat (constructor; [first [exact I|exact xs_ok|now constructor]|]); constructor.
  - intros k H. cbn in H. now destruct H as [<-|[<-|[]]].
Qed.

(** Mcmc: tables are made from its last run if no fit follows it. *)
Theorem C61_mcmc_partial : forall q l1 l2 n x, path_ok q -> let l := (l1 ++ Mcmc n ok ok x :: l2)%list in
  Forall cmd_ok l -> fit_done l1 -> none may_fit l2 -> none may_mcmc l2 ->
  exists u, snd (tables q "mcmc" [TParams; TPriors; TRv; TCrit] ok (session q l empty_world)) = Ok u /\ p_run (u_post u) = n /\ u_chain u = n.
Proof. exact (fun q l1 l2 n x Q => @c61_mcmc_ok q Q l1 l2 n x). Qed.
Print Assumptions C61_mcmc_partial.

Example C61_mcmc_partial_ex : exists u, snd (tables "K2" "mcmc" [TParams; TPriors; TRv; TCrit] ok
  (session "K2" [Fit 1 ok ok; Mcmc 2 ok ok xs; Nested 3 ok ok []; Derive 4 "ns" ok ok true; Plots "auto" [PRv] ok] empty_world)) = Ok u /\ p_run (u_post u) = 2 /\ u_chain u = 2.
Proof.
  apply (C61_mcmc_partial "K2" [Fit 1 ok ok] [Nested 3 ok ok []; Derive 4 "ns" ok ok true; Plots "auto" [PRv] ok] 2 xs path_k2).
  - repeat (constructor; [first [exact I|exact xs_ok|now constructor]|]); constructor.
  - exists 1. cbn; auto.
  - intros k H. cbn in H. now repeat destruct H as [<-|H].
  - intros k H. cbn in H. now repeat destruct H as [<-|H].
Qed.

(** Derived samples are those of the sampler that was chosen for them, as long as that sampler
    is not run again. *)
Theorem C61_derived_partial : forall q l1 l2 d sampler r ts u, path_ok q -> let l := (l1 ++ Derive d sampler ok ok true :: l2)%list in
  Forall cmd_ok l -> chosen sampler l1 r -> none may_derive l2 -> (r = "mcmc" /\ none may_mcmc l2 \/ r = "ns" /\ none may_ns l2) ->
  snd (tables q r ts ok (session q l empty_world)) = Ok u -> u_derived u = Some (d, u_chain u).
Proof. exact (fun q l1 l2 d sampler r ts u Q => @c61_derived_chosen q Q l1 l2 d sampler r ts u). Qed.
Print Assumptions C61_derived_partial.

Example C61_derived_partial_ex : exists u, snd (tables "K2" "mcmc" [TDerived] ok
  (session "K2" [Fit 1 ok ok; Mcmc 2 ok ok xs; Derive 3 "auto" ok ok true; Nested 4 ok ok []] empty_world)) = Ok u /\
  u_derived u = Some (3, u_chain u) /\ chosen "auto" [Fit 1 ok ok; Mcmc 2 ok ok xs] "mcmc".
Proof.
  eexists. split; [vm_compute; reflexivity|]. split; [reflexivity|]. left. split; [reflexivity|]. split; [|auto].
  exists [Fit 1 ok ok], [], 2, xs. split; [reflexivity|]. exists 1. cbn; auto.
Qed.
