(** Property theorems C67: the TeX labels of parameters. *)
From Coq Require Import String Ascii Arith Bool Lia List.
From Verif Require Import Py Params ParamsSpec Basis BasisThms DecorrSpec DecorrProofs TexLabels TexSpec TexProofs TexThms.
Import ListNotations.
Open Scope string_scope.

(** * C67 *)
(** Each of the first nine planets has its parameters labelled with their symbol and the planet's letter. *)
Theorem C67_planets_partial : forall pp letters ks d n p sym l, tex_labels pp letters ks = Ok d ->
  In (key p n) ks -> (1 <= n <= 9)%nat -> In (p, sym) SYMBOLS -> letter_of letters n l ->
  dget d (key p n) = Some ("$" ++ sym ++ "_{" ++ l ++ "}$") /\ (no_brace l -> balanced ("$" ++ sym ++ "_{" ++ l ++ "}$")).
Proof. exact planets_thm. Qed.
Print Assumptions C67_planets_partial.

Example C67_planets_ex : exists d, tex_labels ["per"; "tc"; "secosw"; "sesinw"; "logk"] (Some [(1, "d"); (2, "e")]) ["per1"; "logk2"] = Ok d /\
  dget d "per1" = Some "$P_{d}$" /\ dget d "logk2" = Some "$\ln{K}_{e}$" /\ letter_of (Some [(1, "d"); (2, "e")]) 2 "e".
Proof. eexists. split; [reflexivity|]. split; [reflexivity|]. split; [reflexivity|]. exists [(1, "d")], []. split; [reflexivity|]. cbn. intuition lia. Qed.

(** No two of them have the same label. *)
Theorem C67_distinct_partial : forall pp ks d n n' p p' sym sym', tex_labels pp None ks = Ok d ->
  In (key p n) ks -> In (key p' n') ks -> (1 <= n <= 9)%nat -> (1 <= n' <= 9)%nat ->
  In (p, sym) SYMBOLS -> In (p', sym') SYMBOLS -> dget d (key p n) = dget d (key p' n') -> p = p' /\ n = n'.
Proof. exact planets_distinct. Qed.
Print Assumptions C67_distinct_partial.

Example C67_distinct_ex : exists d, tex_labels ["per"; "tp"; "e"; "w"; "k"] None ["e1"; "e2"; "w1"] = Ok d /\
  dget d "e1" = Some "$e_{b}$" /\ dget d "e2" = Some "$e_{c}$" /\ dget d "w1" = Some "$\omega_{b}$".
Proof. eexists. split; [reflexivity|]. repeat split; reflexivity. Qed.

(** Offsets and jitters are labelled with their symbol and the instrument. *)
Theorem C67_instruments_partial : forall b names letters ks d inst, tex_labels names letters ks = Ok d -> In (b, names) FIT_BASES -> plain_name inst ->
  (In ("gamma_" ++ inst) ks -> dget d ("gamma_" ++ inst) = Some ("$\gamma_{\rm " ++ inst ++ "}$")) /\
  (In ("jit_" ++ inst) ks -> dget d ("jit_" ++ inst) = Some ("$\sigma_{\rm " ++ inst ++ "}$")) /\
  (no_brace inst -> balanced ("$\gamma_{\rm " ++ inst ++ "}$") /\ balanced ("$\sigma_{\rm " ++ inst ++ "}$")).
Proof. exact instruments_thm. Qed.
Print Assumptions C67_instruments_partial.

Example C67_instruments_ex : plain_name "hires_rj2" /\ no_brace "hires_rj2" /\ exists d,
  tex_labels ["per"; "tp"; "e"; "w"; "k"] None ["gamma_hires_rj2"; "jit_hires_rj2"] = Ok d /\ dget d "gamma_hires_rj2" = Some "$\gamma_{\rm hires_rj2}$".
Proof.
  split; [split; [discriminate|]; intros m Hm; apply occurs_skip; repeat (destruct Hm as [<-|Hm]; [reflexivity|]); easy|].
  split; [split; apply occurs_skip; reflexivity|]. eexists. split; reflexivity.
Qed.

(** The hyperparameters of the quasi-periodic, periodic and exponential kernels of one instrument are labelled with their
    symbol and the instrument. *)
Theorem C67_hyperparameters_partial : forall b names letters ks d h u inst, tex_labels names letters ks = Ok d -> In (b, names) FIT_BASES -> In (h, u) HYPERS ->
  plain_name inst -> no_brace inst -> ~ ends_in_digit inst -> In (h ++ "_" ++ inst) ks ->
  dget d (h ++ "_" ++ inst) = Some ("$" ++ u ++ ", \rm " ++ inst ++ "}$") /\ balanced ("$" ++ u ++ ", \rm " ++ inst ++ "}$").
Proof. exact hypers_thm. Qed.
Print Assumptions C67_hyperparameters_partial.

Example C67_hyperparameters_ex : exists d, tex_labels ["per"; "tp"; "e"; "w"; "k"] None ["gp_perlength_apf"] = Ok d /\
  dget d "gp_perlength_apf" = Some "$\eta_{4, \rm apf}$".
Proof. eexists. split; reflexivity. Qed.

(** Every parameter gets exactly one label, if the letters cover the last digits that occur. *)
Theorem C67_complete_partial : forall pp letters ks, (forall k, In k ks -> k <> "") ->
  (forall k p c, In k ks -> k = p ++ String c "" -> (48 <= nat_of_ascii c <= 57)%nat ->
     match letters with Some d => In (nat_of_ascii c - 48)%nat (map fst d) | None => True end) ->
  exists d, tex_labels pp letters ks = Ok d /\ forall k, In k (dkeys d) <-> In k ks.
Proof. exact success_spec. Qed.
Print Assumptions C67_complete_partial.

Example C67_complete_ex : tex_labels ["per"] None ["per1"; "gamma_j"; "c1_airmass"] =
  Ok [("per1", "$P_{b}$"); ("gamma_j", "$\gamma_{\rm j}$"); ("c1_airmass", "c1_airmass")].
Proof. reflexivity. Qed.

(** From the tenth planet on the labels are wrong: the last digit alone is taken for the number of the planet. *)
Theorem C67_tenth_planet_refuted : exists d, tex_labels ["per"; "tp"; "e"; "w"; "k"] None [key "per" 12; key "per" 2] = Ok d /\
  dget d (key "per" 12) = Some "$per1_{c}$" /\ dget d (key "per" 2) = Some "$P_{c}$".
Proof. eexists. split; [reflexivity|]. split; reflexivity. Qed.
Print Assumptions C67_tenth_planet_refuted.

(** With letters given for ten planets there are no labels at all. *)
Theorem C67_letters_refuted : forall pp letters, ~ In 0%nat (map fst letters) -> exists e, tex_labels pp (Some letters) [key "per" 10] = Err e.
Proof. exact tenth_fails. Qed.
Print Assumptions C67_letters_refuted.

Example C67_letters_ex : tex_labels ["per"] (Some [(1, "b"); (10, "k")]) [key "per" 10] = Err (KeyError "0").
Proof. reflexivity. Qed.

(** Some labels are not valid: names of instruments in which another parameter's name occurs, and hyperparameters of the
    kernels whose symbol has no brace. *)
Theorem C67_braces_refuted : exists d, tex_labels ["per"; "tp"; "e"; "w"; "k"] None ["gamma_curvy"; "gp_B_apf"] = Ok d /\
  forall k l, dget d k = Some l -> ~ balanced l.
Proof. exact unbalanced. Qed.
Print Assumptions C67_braces_refuted.

(** A hyperparameter of an instrument whose name ends in a digit is labelled as belonging to a planet; the symbol listed
    for the logarithm of the jitter is never used. *)
Theorem C67_symbol_refuted : exists d, tex_labels ["per"; "tp"; "e"; "w"; "k"] None ["gp_amp_apf1"; "logjit_apf"] = Ok d /\
  dget d "gp_amp_apf1" = Some "$gp_amp_apf_{b}$" /\ dget d "logjit_apf" = Some "$log\sigma_{\rm apf}$".
Proof. eexists. split; [reflexivity|]. split; reflexivity. Qed.
Print Assumptions C67_symbol_refuted.
