(** What the theorems about priors are stated with. *)
From Coq Require Import Reals String List.
From Coquelicot Require Import Coquelicot.
From Verif Require Import Py Params Prior.
Import ListNotations.
Open Scope R_scope.

(** the Vector row_holds the value [x] for the parameter [s] *)
Definition row_holds (idx : dict nat) (v : list row) (s : string) (x : R) : Prop :=
  exists i r, dget idx s = Some i /\ nth_error v i = Some r /\ r_val r = Some x.

(** calling the prior returns [d x] when the parameter's value is [x] *)
Definition log_density_of (p : prior) (s : string) (d : R -> ext) : Prop :=
  forall pb idx v x, row_holds idx v s x -> prior_call pb idx v p = Ok (d x).

(** the density whose logarithm is given *)
Definition edens (e : ext) : R := match e with Fin r => exp r | _ => 0 end.

(** probability of the half line below [q] *)
Definition mass_below (d : R -> ext) (q m : R) : Prop :=
  is_RInt_gen (fun x => edens (d x)) (Rbar_locally m_infty) (at_point q) m.

(** every value is the log of a density: a number, or -inf exactly where [supp] fails;
    and the density integrates to 1 *)
Definition proper_density (d : R -> ext) (supp : R -> Prop) : Prop :=
  (forall x, supp x -> exists r, d x = Fin r) /\
  (forall x, ~ supp x -> d x = NInf) /\
  is_RInt_gen (fun x => edens (d x)) (Rbar_locally m_infty) (Rbar_locally p_infty) 1.

(** [tr] maps (0,1) increasingly into the support, the mass below tr(u) being u *)
Definition quantile_map (tr : R -> res R) (d : R -> ext) (supp : R -> Prop) : Prop :=
  forall u, 0 < u < 1 -> exists q, tr u = Ok q /\ supp q /\ mass_below d q u /\
    forall u', u < u' < 1 -> exists q', tr u' = Ok q' /\ q < q'.

(** scipy's norm.ppf: quantiles of the standard normal distribution *)
Definition is_ppf (ppf : R -> R) : Prop :=
  forall u, 0 < u < 1 -> is_RInt_gen (fun x => exp (- (x ^ 2 / 2)) / sqrt (2 * PI)) (Rbar_locally m_infty) (at_point (ppf u)) u.
