(** Property theorems C73: the descriptions of priors and their table. *)
From Coq Require Import Reals String Ascii Arith Bool Lia Lra List.
From Verif Require Import Py PyFloat Params Prior PriorSpec DecorrSpec TexLabels TexSpec TexProofs PriorTab PriorTabSpec PriorTabProofs.
Import ListNotations.
Open Scope string_scope.

(** * C73 *)
(** The description of a bounded prior shows the parameter's symbol between the limits of the interval on which the prior is
    a proper density. *)
Theorem C73_bounds : forall show text s sym a b, symbol_of s sym -> (a < b)%R -> exists row d, prior_str show text (PHard s (Fin a) (Fin b)) = Ok row /\
  names_interval row "Bounded prior: " (num show a) sym (num show b) /\ log_density_of (PHard s (Fin a) (Fin b)) s d /\ proper_density d (fun x => a < x < b)%R.
Proof. exact hard_thm. Qed.
Print Assumptions C73_bounds.

Example C73_bounds_ex : symbol_of "jit_hires_j" "\sigma_{\rm hires_j}" /\ symbol_of (key "logk" 2) "\ln{K}_{c}" /\
  prior_str (fun _ => "x") "" (PHard "jit_k" (Fin 0) PInf) = Ok "Bounded prior: $x < \sigma_{\rm k} < x$".
Proof.
  split; [|split; [|reflexivity]].
  - right. left. exists "hires_j". split; [split; [discriminate|]; intros m Hm; apply occurs_skip; repeat (destruct Hm as [<-|Hm]; [reflexivity|]); easy|].
    split; [apply occurs_skip; reflexivity|]. right. split; reflexivity.
  - left. exists "logk", 2%nat, "\ln{K}", "c". repeat split; try lia. cbn. tauto.
Qed.

(** Likewise for a Jeffreys prior ... *)
Theorem C73_jeffreys : forall show text s sym a b, symbol_of s sym -> (0 < a)%R -> (a < b)%R -> exists p row d, jeffreys_init s a b = Ok p /\ prior_str show text p = Ok row /\
  names_interval row "Jeffrey's prior: " (num show a) sym (num show b) /\ log_density_of p s d /\ proper_density d (fun x => a <= x <= b)%R.
Proof. exact jeffreys_thm. Qed.
Print Assumptions C73_jeffreys.

Example C73_jeffreys_ex : symbol_of "dvdt" "\dot{\gamma}" /\ (0 < 1 < 2)%R.
Proof. split; [right; right; left; split; reflexivity|lra]. Qed.

(** ... and for a modified one, which shows the knee too. *)
Theorem C73_modified_jeffreys : forall show text s sym a b k, symbol_of s sym -> (k < a)%R -> (a < b)%R -> exists p row d, mod_jeffreys_init s a b k = Ok p /\ prior_str show text p = Ok row /\
  names_interval row ("Modified Jeffrey's prior: knee = " ++ num show k ++ "; ") (num show a) sym (num show b) /\ log_density_of p s d /\ proper_density d (fun x => a <= x <= b)%R.
Proof. exact mod_jeffreys_thm. Qed.
Print Assumptions C73_modified_jeffreys.

Example C73_modified_jeffreys_ex : symbol_of "curv" "\ddot{\gamma}" /\ (-1 < 0 < 2)%R.
Proof. split; [right; right; right; split; reflexivity|lra]. Qed.

(** The description of a Gaussian prior shows mean and standard deviation of its density. *)
Theorem C73_gaussian : forall show text s sym mu sigma, symbol_of s sym -> (0 < sigma)%R -> exists d,
  prior_str show text (PGaussian s mu sigma) = Ok ("Gaussian prior on $" ++ sym ++ "$: $" ++ num show mu ++ " \pm " ++ num show sigma ++ "$ \\") /\
  log_density_of (PGaussian s mu sigma) s d /\ forall x, edens (d x) = (/ sqrt (2 * PI * sigma ^ 2) * exp (- ((x - mu) ^ 2 / (2 * sigma ^ 2))))%R.
Proof. exact gauss_thm. Qed.
Print Assumptions C73_gaussian.

Example C73_gaussian_ex : symbol_of (key "per" 1) "P_{b}" /\ (0 < 2)%R /\
  prior_str (fun _ => "x") "" (PGaussian "per1" 1 2) = Ok "Gaussian prior on $P_{b}$: $x \pm x$ \\".
Proof. split; [left; exists "per", 1%nat, "P", "b"; repeat split; try lia; cbn; tauto|]. split; [lra|reflexivity]. Qed.

(** The description of an eccentricity prior has one line for each planet, with that planet's letter and limit. *)
Theorem C73_eccentricity_partial : forall show text pl lims, (forall n, In n pl -> 1 <= n <= 9)%nat -> length lims = length pl -> exists ls,
  prior_str show text (PEcc pl lims) = Ok (lines ls) /\ length ls = length pl /\
  forall i n u line, nth_error pl i = Some n -> nth_error lims i = Some u -> nth_error ls i = Some line ->
    exists l, letter_of None n l /\ line = "$e_{" ++ l ++ "}$ constrained to be $<" ++ num show u ++ "$ ".
Proof. exact ecc_thm. Qed.
Print Assumptions C73_eccentricity_partial.

Example C73_eccentricity_ex : (forall n, In n [1; 3] -> 1 <= n <= 9)%nat /\ lines ["a"; "b"] = "a\\\\
b".
Proof. split; [cbn; lia|reflexivity]. Qed.

(** The description of a numerical prior names all its parameters. *)
Theorem C73_numerical : forall show text pl f g syms, Forall2 symbol_of pl syms -> NoDup pl -> pl <> [] ->
  prior_str show text (PNumerical pl f g) = Ok ("Numerical prior on " ++ named (map (fun y => "$" ++ y ++ "$") syms) ++ ", defined using Gaussian kernel density estimation.").
Proof. exact numerical_thm. Qed.
Print Assumptions C73_numerical.

Example C73_numerical_ex : prior_str (fun _ => "") "" (PNumerical ["secosw1"; "sesinw1"; "per1"] (fun _ => Ok NInf) (fun x => x)) =
  Ok "Numerical prior on $\sqrt{e}\cos{\omega}_{b}$, $\sqrt{e}\sin{\omega}_{b}$, and $P_{b}$, defined using Gaussian kernel density estimation." /\
  named ["a"; "b"] = "a and b" /\ NoDup ["per1"; "per2"].
Proof. split; [reflexivity|]. split; [reflexivity|]. repeat constructor; cbn; intuition discriminate. Qed.

(** The description of a secondary eclipse prior shows time and uncertainty. *)
Theorem C73_eclipse : forall show text n ts err, prior_str show text (PSecEcl n ts err) = Ok ("secondary eclipse prior: $" ++ num show ts ++ " \pm " ++ num show err ++ "$ ").
Proof. exact eclipse_str. Qed.
Print Assumptions C73_eclipse.

(** The table has one row for each prior in order, its description, with its line ended. *)
Theorem C73_rows : forall show pp letters keys d priors ds, tex_labels pp letters keys = Ok d -> Forall2 (fun p r => prior_str show (snd p) (fst p) = Ok r) priors ds ->
  exists rows, tab_prior_summary show pp letters keys priors = Ok rows /\ Forall2 finished ds rows.
Proof. exact rows_thm. Qed.
Print Assumptions C73_rows.

Example C73_rows_ex : tab_prior_summary (fun _ => "x") ["per"] None ["per1"] [(PPosK 1, ""); (PGaussian "k1" 0 1, ""); (PUser ["per1"] (fun _ => Ok NInf) None, "text\\")] =
  Ok ["$K$ constrained to be $>0$\\"; "Gaussian prior on $K_{b}$: $x \pm x$ \\"; "text\\"].
Proof. reflexivity. Qed.

(** Descriptions use the default letters even if the fit has its own: the same parameter has different labels in the tables
    of one report. *)
Theorem C73_letters_refuted : forall show pp letters keys d q y n l l' mu sigma text, tex_labels pp (Some letters) keys = Ok d -> In (key q n) keys -> (1 <= n <= 9)%nat -> In (q, y) SYMBOLS ->
  letter_of (Some letters) n l -> letter_of None n l' ->
  dget d (key q n) = Some ("$" ++ y ++ "_{" ++ l ++ "}$") /\
  prior_str show text (PGaussian (key q n) mu sigma) = Ok ("Gaussian prior on $" ++ y ++ "_{" ++ l' ++ "}$: $" ++ num show mu ++ " \pm " ++ num show sigma ++ "$ \\").
Proof. exact letters_differ. Qed.
Print Assumptions C73_letters_refuted.

Example C73_letters_ex : letter_of (Some [(1, "c"); (2, "b")]%nat) 1 "c" /\ letter_of None 1 "b" /\
  tab_prior_summary (fun _ => "x") ["per"] (Some [(1, "c"); (2, "b")]%nat) ["per1"; "per2"] [(PGaussian "per1" 0 1, "")] = Ok ["Gaussian prior on $P_{b}$: $x \pm x$ \\"].
Proof. split; [exists [], [(2%nat, "b")]; split; [reflexivity|easy]|]. split; reflexivity. Qed.

(** There is no table with an eccentricity prior on a tenth planet. *)
Theorem C73_tenth_planet_refuted : forall show pp letters keys priors pl lims t n, In (PEcc pl lims, t) priors -> In n pl -> (9 < n)%nat -> length lims = length pl ->
  exists e, tab_prior_summary show pp letters keys priors = Err e.
Proof. exact ecc_table_fails. Qed.
Print Assumptions C73_tenth_planet_refuted.

Example C73_tenth_planet_ex : (exists p, ecc_prior_init (inl 10%nat) (inl (9 / 10)%R) = Ok p /\
  tab_prior_summary (fun _ => "x") ["per"] None ["per1"] [(p, "")] = Err (KeyError "e10")) /\ In 10%nat (seq 1 10).
Proof. split; [eexists; split; reflexivity|cbn; tauto]. Qed.
