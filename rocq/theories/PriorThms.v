(** C22, C23 for priors as built by their constructors. *)
From Coq Require Import Reals String Lra List.
From Verif Require Import Py PyFloat Params Basis Prior PriorSpec PriorProofs.
Import ListNotations.
Open Scope R_scope.

Lemma hard_prior s a b : a < b ->
  exists d, log_density_of (PHard s (Fin a) (Fin b)) s d /\ proper_density d (fun x => a < x < b) /\
    forall ppf, quantile_map (transform ppf (PHard s (Fin a) (Fin b))) d (fun x => a < x < b).
Proof.
  intro H. exists (hard_d a b). split; [now apply hard_call|]. split; [now apply hard_proper|].
  intro ppf. now apply hard_quantile.
Qed.

Lemma jeffreys_prior s a b : 0 < a -> a < b ->
  exists p d, jeffreys_init s a b = Ok p /\ log_density_of p s d /\ proper_density d (fun x => a <= x <= b) /\
    forall ppf, quantile_map (transform ppf p) d (fun x => a <= x <= b).
Proof.
  intros H1 H2. eexists. exists (jeff_d 0 a b). split; [now apply jeffreys_built|]. split; [now apply jeffreys_call|].
  split; [apply jeff_proper; lra|]. intro ppf. now apply jeffreys_transform.
Qed.

Lemma mod_jeffreys_prior s a b x0 : x0 < a -> a < b ->
  exists p d, mod_jeffreys_init s a b x0 = Ok p /\ log_density_of p s d /\ proper_density d (fun x => a <= x <= b) /\
    forall ppf, quantile_map (transform ppf p) d (fun x => a <= x <= b).
Proof.
  intros H1 H2. eexists. exists (jeff_d x0 a b). split; [now apply mod_jeffreys_built|]. split; [now apply mod_jeffreys_call|].
  split; [apply jeff_proper; lra|]. intro ppf. now apply mod_jeffreys_transform.
Qed.

Lemma gauss_prior s mu sigma : 0 < sigma ->
  exists d, log_density_of (PGaussian s mu sigma) s d /\ proper_density d (fun _ => True) /\
    forall ppf, is_ppf ppf -> quantile_map (transform ppf (PGaussian s mu sigma)) d (fun _ => True).
Proof.
  intro H. exists (gauss_d mu sigma). split; [now apply gauss_call|]. split; [now apply gauss_proper|].
  intros ppf HP. now apply gauss_quantile.
Qed.

(** the mean and the spread of the normal prior *)
Lemma gauss_prior_shape s mu sigma : 0 < sigma -> forall d, log_density_of (PGaussian s mu sigma) s d -> forall x,
  edens (d x) = / sqrt (2 * PI * sigma ^ 2) * exp (- ((x - mu) ^ 2 / (2 * sigma ^ 2))).
Proof.
  intros H d Hd x. rewrite <- (gauss_edens mu sigma x H). f_equal.
  assert (row_holds [(s, 0%nat)] [mkRow (Some x) true None false] s x) as HR.
  { exists 0%nat. eexists. cbn. rewrite String.eqb_refl. auto. }
  pose proof (Hd (basis_init "per tp e w k" 1) _ _ _ HR) as E1.
  pose proof (gauss_call s mu sigma H (basis_init "per tp e w k" 1) _ _ _ HR) as E2. congruence.
Qed.

Lemma hard_density s a b : a < b ->
  exists d, log_density_of (PHard s (Fin a) (Fin b)) s d /\ proper_density d (fun x => a < x < b).
Proof. intro H. destruct (hard_prior s a b H) as (d & A & B & _). eauto. Qed.
Lemma jeffreys_density s a b : 0 < a -> a < b ->
  exists p d, jeffreys_init s a b = Ok p /\ log_density_of p s d /\ proper_density d (fun x => a <= x <= b).
Proof. intros H1 H2. destruct (jeffreys_prior s a b H1 H2) as (p & d & A & B & C & _). eauto 6. Qed.
Lemma mod_jeffreys_density s a b x0 : x0 < a -> a < b ->
  exists p d, mod_jeffreys_init s a b x0 = Ok p /\ log_density_of p s d /\ proper_density d (fun x => a <= x <= b).
Proof. intros H1 H2. destruct (mod_jeffreys_prior s a b x0 H1 H2) as (p & d & A & B & C & _). eauto 6. Qed.
Lemma gauss_density s mu sigma : 0 < sigma ->
  exists d, log_density_of (PGaussian s mu sigma) s d /\ proper_density d (fun _ => True).
Proof. intro H. destruct (gauss_prior s mu sigma H) as (d & A & B & _). eauto. Qed.
