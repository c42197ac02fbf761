(** Model of radvel/posterior.py.  The state is the rows of the shared Vector;
    the likelihood is given by its logprob method on that state. *)
From Coq Require Import Reals String Arith Bool List.
From Verif Require Import Py PyFloat Params Kepler Basis Prior Likelihood.
Import ListNotations.
Open Scope R_scope.

(** running sum of posterior.py:47-49 and 142-146 *)
Definition sum_priors (f : prior -> res ext) (ps : list prior) (acc : ext) : res ext :=
  for_each ps (fun acc p => do x <- f p; Ok (ext_add acc x)) acc.

Section Posterior.
  Variables (pb : basis) (idx : dict nat) (lik : list row -> list row * res ext).

  (** Posterior.logprob, posterior.py:38-50 *)
  Definition post_logprob (priors : list prior) (v : list row) : list row * res ext :=
    match sum_priors (prior_call pb idx v) priors (Fin 0) with
    | Err e => (v, Err e)
    | Ok s => if isfinite s
              then let '(v', r) := lik v in (v', do l <- r; Ok (ext_add s l))
              else (v, Ok s)
    end.

  (** Posterior.extra_likelihood, posterior.py:133-146 *)
  Definition extra_likelihood (priors : list prior) (v : list row) : res ext :=
    sum_priors (prior_call_finite pb idx v) (filter prior_extra priors) (Fin 0).

  (** the body of Posterior.likelihood_ns_array after set_vary_params,
      posterior.py:172-176 *)
  Definition ns_loglike (priors : list prior) (v : list row) : list row * res ext :=
    match extra_likelihood priors v with
    | Err e => (v, Err e)
    | Ok s => if isfinite s
              then let '(v', r) := lik v in (v', do l <- r; Ok (ext_add s l))
              else (v, Ok (Fin (- 10 ^ 100)))
    end.
End Posterior.

(** Posterior.logprob_array, posterior.py:178-193, is [logprob_array] of
    Likelihood.v with [post_logprob] (set_vary_params is the likelihood's, with
    the likelihood's cache); likelihood_ns_array the same with [ns_loglike]. *)

(** Posterior.get_prior_dict, posterior.py:52-67 *)
Definition prior_dict_step (d : dict (list prior)) (p : prior) : dict (list prior) :=
  match prior_param p with
  | None => d
  | Some k => match dget d k with
              | None => dset d k [p]
              | Some l => dset d k (l ++ [p])%list
              end
  end.
Definition get_prior_dict (priors : list prior) : dict (list prior) := fold_left prior_dict_step priors [].

Definition count_transforms (l : list prior) : nat := length (filter (fun p => negb (prior_extra p)) l).

(** Posterior.check_proper_priors, posterior.py:69-102; [vary] is
    self.name_vary_params() *)
Definition check_proper_priors (vary : list string) (priors : list prior) : res unit :=
  let d := get_prior_dict priors in
  do _ <- for_each vary
    (fun _ pname =>
       let l := match dget d pname with Some l => l | None => [] end in
       if Nat.eqb (length l) 0 then Err ValueError
       else if Nat.eqb (count_transforms l) 0 then Err ValueError
       else if Nat.ltb 1 (count_transforms l) then Err ValueError
       else Ok tt) tt;
  for_each (dkeys d)
    (fun _ pname =>
       let l := match dget d pname with Some l => l | None => [] end in
       for_each l (fun _ p => if negb (str_mem pname vary) && negb (prior_extra p) then Err ValueError else Ok tt) tt) tt.

(** [x[i] = y] *)
Definition aset (x : list R) (i : nat) (y : R) : res (list R) :=
  if Nat.ltb i (length x) then Ok (list_upd x i y) else Err IndexError.

(** Posterior.prior_transform, posterior.py:105-131: the returned array and the
    caller's array afterwards.  With inplace=True they are the same object. *)
Fixpoint pt_loop (ppf : R -> R) (d : dict (list prior)) (inplace : bool) (ind : nat) (names : list string)
    (x u : list R) : res (list R * list R) :=
  match names with
  | [] => Ok (x, u)
  | pname :: r =>
      do l <- dget_res d pname;
      match find (fun p => negb (prior_extra p)) l with
      | None => pt_loop ppf d inplace (S ind) r x u
      | Some p =>
          do ui <- match nth_error u ind with Some z => Ok z | None => Err IndexError end;
          do y <- transform ppf p ui;
          do x' <- aset x ind y;
          pt_loop ppf d inplace (S ind) r x' (if inplace then x' else u)
      end
  end.
Definition prior_transform (ppf : R -> R) (vary : list string) (priors : list prior) (inplace : bool) (u : list R)
  : res (list R * list R) :=
  pt_loop ppf (get_prior_dict priors) inplace 0 vary u u.

(** Posterior.bic / aic, posterior.py:210-218: [raise x] with a float raises
    TypeError (exceptions must derive from BaseException). *)
Definition post_bic {S} (like_bic : S -> S * res ext) (s : S) : S * res ext := like_bic s.
Definition post_aic {S} (like_aic : S -> S * res ext) (s : S) : S * res ext :=
  let '(s', r) := like_aic s in (s', do _ <- r; Err TypeError).
