(** What the likelihood theorems are stated with.  Nothing here refers to the
    definitions of Likelihood.v except the types of rows. *)
From Coq Require Import Reals List.
From Verif Require Import Params PyFloat.
Import ListNotations.
Open Scope R_scope.

(** density of the normal distribution with mean 0 and variance [var] *)
Definition normal_pdf (var x : R) : R := exp (- (x ^ 2 / (2 * var))) / sqrt (2 * PI * var).

(** a data point: time, velocity, uncertainty *)
Record datum := mkDatum { d_t : R; d_y : R; d_err : R }.

(** variance of a point *)
Definition var_of (jit : R) (p : datum) : R := d_err p ^ 2 + jit ^ 2.

(** log-likelihood of data: sum of log densities of y - gamma - model(t) *)
Definition gauss_loglike (model : R -> R) (gamma jit : R) (data : list datum) : R :=
  rsum (map (fun p => ln (normal_pdf (var_of jit p) (d_y p - gamma - model (d_t p)))) data).

(** likelihood: product of densities *)
Definition gauss_like (model : R -> R) (gamma jit : R) (data : list datum) : R :=
  fold_right Rmult 1 (map (fun p => normal_pdf (var_of jit p) (d_y p - gamma - model (d_t p))) data).

(** chi squared as a function of the offset *)
Definition chi2 (model : R -> R) (gamma jit : R) (data : list datum) : R :=
  rsum (map (fun p => (d_y p - gamma - model (d_t p)) ^ 2 / var_of jit p) data).

(** rows that agree up to the values of the rows in [P] *)
Definition agree (P : nat -> Prop) (v w : list row) : Prop :=
  length v = length w /\
  forall i r s, nth_error v i = Some r -> nth_error w i = Some s ->
    r_vary r = r_vary s /\ r_scale r = r_scale s /\ r_lin r = r_lin s /\ (P i \/ r_val r = r_val s).

(** row [i] is varied *)
Definition is_free (v : list row) (i : nat) : Prop := exists r, nth_error v i = Some r /\ r_vary r = true.
(** number of varied rows *)
Definition n_free (v : list row) : nat := length (filter r_vary v).
