(** Property C94: what the texts of parameters and kernels tell. *)
From Coq Require Import Reals String Ascii Bool Lra List.
From Verif Require Import Py PyFloat Params Likelihood LikeMore Gp PriorTextSpec PriorTextThms PriorTextProofs ParamText ParamTextSpec ParamTextThms.
Import ListNotations.
Open Scope string_scope.

(** * C94 *)
(** Full claim: parameters with the same text are the same.  They agree in value, vary and scale, which is what _equals
    compares: the text and _equals tell the same parameters apart, when the numbers are each written in their own way. *)
Theorem C94_parameter_partial : forall show F, shown_apart show F -> forall p q, param_among F p -> param_among F q ->
  (param_text show p = param_text show q <-> param_equals p q = true).
Proof. exact params_told. Qed.
Print Assumptions C94_parameter_partial.

Example C94_parameter_ex : shown_apart xshow xF /\ param_among xF (mkParam (Some 10%R) (VBool true) None false) /\
  param_text xshow (mkParam (Some 10%R) (VBool true) None false) = "Parameter object: value = 10, vary = True, mcmc scale = None".
Proof. exact x_param. Qed.

(** Whether a parameter is linear is told by neither: every parameter has a different one with the same text. *)
Theorem C94_linear_refuted : forall show p, exists q, param_text show p = param_text show q /\ param_equals p q = true /\ p <> q.
Proof. exact linear_untold. Qed.
Print Assumptions C94_linear_refuted.

Example C94_linear_ex : param_text xshow (mkParam (Some 10%R) (VBool true) None false) = param_text xshow (mkParam (Some 10%R) (VBool true) None true).
Proof. reflexivity. Qed.

(** Kernels with the same text are of one kind and have the same hyper-parameters; every kernel with its hyper-parameters
    has a text. *)
Theorem C94_kernel : forall show F, shown_apart show F -> forall kind kind' h h' t,
  hyper_among F (hyper_names kind) h -> hyper_among F (hyper_names kind') h' ->
  kernel_text show kind h = Ok t -> kernel_text show kind' h' = Ok t -> kind = kind' /\ same_hyper (hyper_names kind) h h'.
Proof. exact kernels_told. Qed.
Print Assumptions C94_kernel.

Theorem C94_kernel_total : forall show kind h, (forall k, In k (hyper_names kind) -> exists x, dget h k = Some x) ->
  exists t, kernel_text show kind h = Ok t.
Proof. exact kernel_has_text. Qed.
Print Assumptions C94_kernel_total.

Example C94_kernel_ex : hyper_among xF (hyper_names SqExp) [("gp_amp", Some 2%R); ("gp_length", Some 10%R)] /\
  kernel_text xshow SqExp [("gp_amp", Some 2%R); ("gp_length", Some 10%R)] = Ok "SqExp Kernel with length: 10, amp: 2".
Proof. exact x_kernel. Qed.

(** The same for the celerite kernel, whose text ends with a full stop. *)
Theorem C94_celerite : forall show F, shown_apart show F -> forall h h' t,
  hyper_among F ["gp_B"; "gp_C"; "gp_L"; "gp_Prot"] h -> hyper_among F ["gp_B"; "gp_C"; "gp_L"; "gp_Prot"] h' ->
  celerite_text show h = Ok t -> celerite_text show h' = Ok t -> same_hyper ["gp_B"; "gp_C"; "gp_L"; "gp_Prot"] h h'.
Proof. exact celerite_told. Qed.
Print Assumptions C94_celerite.

Example C94_celerite_ex : hyper_among xF ["gp_B"; "gp_C"; "gp_L"; "gp_Prot"] [("gp_B", Some 2%R); ("gp_C", Some 1%R); ("gp_L", Some 10%R); ("gp_Prot", Some 10%R)] /\
  celerite_text xshow [("gp_B", Some 2%R); ("gp_C", Some 1%R); ("gp_L", Some 10%R); ("gp_Prot", Some 10%R)] = Ok "Celerite Kernel with B = 2, C = 1, L = 10, Prot = 10.".
Proof. exact x_celerite. Qed.
