(** Property C89: what the text of a posterior tells about its priors. *)
From Coq Require Import Reals String Ascii Arith Bool Lia Lra List.
From Verif Require Import Py PyFloat Params Basis Prior PriorTab PriorText PriorTextSpec PriorTextThms PriorTextProofs FitText FitTextSpec.
Import ListNotations.
Open Scope string_scope.

(** * C89 *)
(** Full claim: priors with the same description are the same.  It holds of every prior on one parameter and of eccentricity
    priors, of whatever kinds the two are, when the numbers (floats) are each written in their own way. *)
Theorem C89_identifies_partial : forall show F, told_apart show F -> forall t t' p q s, stated F p -> stated F q ->
  description show t p = Ok s -> description show t' q = Ok s -> p = q.
Proof. exact identified. Qed.
Print Assumptions C89_identifies_partial.

Example C89_identifies_ex : told_apart xshow xF /\ stated xF x_gauss /\ stated xF x_hard /\ stated xF x_ecc /\
  description xshow "" x_gauss = Ok "Gaussian prior on per1, mu=10, sigma=2" /\
  description xshow "" x_hard = Ok "Bounded prior on jit_a, min=-3, max=inf".
Proof. destruct x_stated as (A & B & C & _). destruct x_texts as (D & E & _). exact (conj xshow_told (conj A (conj B (conj C (conj D E))))). Qed.

(** An eccentricity prior has one line per planet, in order, with its own limit. *)
Theorem C89_eccentricities : forall show F, told_apart show F -> forall t pl lims d, pl <> [] -> length lims = length pl ->
  Forall (fun u => F (Fin u)) lims -> description show t (PEcc pl lims) = Ok d ->
  Forall2 (fun x l => l = "e" ++ str_nat (fst x) ++ " constrained to be < " ++ num show (snd x)) (combine pl lims) (lines d).
Proof. exact ecc_lines_shown. Qed.
Print Assumptions C89_eccentricities.

Example C89_eccentricities_ex : exists d, description xshow "" (PEcc [1; 3]%nat [1; 2]%R) = Ok d /\
  lines d = ["e1 constrained to be < 1"; "e3 constrained to be < 2"].
Proof. exact (proj2 (proj2 x_texts)). Qed.

(** So the text of a posterior tells its whole list of priors, in order. *)
Theorem C89_posterior_partial : forall show F, told_apart show F -> forall g tb u idx v h par tp tq ps qs ds es h1 t,
  Forall (fun p => stated F p /\ one_line p) ps -> Forall (fun p => stated F p /\ one_line p) qs ->
  Forall2 (fun p d => description show tp p = Ok d) ps ds -> Forall2 (fun q d => description show tq q = Ok d) qs es ->
  post_repr g tb u idx v h par ds = Ok (h1, t) -> post_repr g tb u idx v h par es = Ok (h1, t) -> ps = qs.
Proof. exact posterior_tells. Qed.
Print Assumptions C89_posterior_partial.

Example C89_posterior_ex : Forall (fun p => stated xF p /\ one_line p) [x_gauss; x_hard] /\ exists ds h1 t,
  Forall2 (fun p d => description xshow "" p = Ok d) [x_gauss; x_hard] ds /\
  post_repr (fun _ => "1") 0 None [] [] [] (mkParams [] (basis_init "per tp e w k" 0) 0 [] None) ds = Ok (h1, t).
Proof.
  destruct x_stated as (A & B & _ & C & D). destruct x_texts as (E & F & _). split; [constructor; [auto|constructor; [auto|constructor]]|].
  eexists. eexists. eexists. split; [constructor; [exact E|constructor; [exact F|constructor]]|reflexivity].
Qed.

(** False of the others: the description of a prior on amplitudes does not say of which planets ... *)
Theorem C89_amplitudes_refuted : forall show t, description show t (PPosK 1) = description show t (PPosK 2) /\
  exists pb idx v, prior_call pb idx v (PPosK 1) = Ok (Fin 0) /\ prior_call pb idx v (PPosK 2) = Ok NInf.
Proof. exact posk_untold. Qed.
Print Assumptions C89_amplitudes_refuted.

(** ... that of a secondary eclipse does not say of which planet ... *)
Theorem C89_eclipse_refuted : forall show t ts err, description show t (PSecEcl 1 ts err) = description show t (PSecEcl 2 ts err) /\
  exists pb idx v x, prior_call pb idx v (PSecEcl 1 ts err) = Ok x /\ prior_call pb idx v (PSecEcl 2 ts err) = Err IndexError.
Proof. exact eclipse_untold. Qed.
Print Assumptions C89_eclipse_refuted.

(** ... and those of a numerical or user-defined prior do not say which function. *)
Theorem C89_function_refuted : forall show t pl, exists f f',
  description show t (PNumerical pl f (fun x => x)) = description show t (PNumerical pl f' (fun x => x)) /\
  description show t (PUser pl f None) = description show t (PUser pl f' None) /\ forall xs, f xs <> f' xs.
Proof. exact kernel_untold. Qed.
Print Assumptions C89_function_refuted.
