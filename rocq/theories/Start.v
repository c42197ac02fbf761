(** The start of an MCMC run: how far walkers are put from the fit, and where, radvel/mcmc.py:284-335, and what emcee asks of
    a start.  nan is [None]; the draws of np.random.rand are an argument, the condition number of a start is an oracle. *)
From Coq Require Import Reals String Ascii Arith Bool List.
From Verif Require Import Py Params Likelihood Mcmc.
Import ListNotations.
Open Scope R_scope.

Definition log10 (x : R) : R := ln x / ln 10.
(** mcmc.py:304-317, the branches in their order; np.log10 of 0 or less gives nan times it *)
Definition usual_scale (name : string) (val : option R) : option R :=
  match val with
  | None => if startswith name "per" then None else if startswith name "logper" then None
            else if startswith name "tc" || startswith name "tp" then Some (1 / 10)
            else if startswith name "gamma" then Some 1 else None
  | Some x =>
      if startswith name "per" then (if Rlt_dec 0 x then Some (Rabs (x * (1 / 100000) * log10 x)) else None)
      else if startswith name "logper" then Some (Rabs (1 / 100000 * x))
      else if startswith name "tc" || startswith name "tp" then Some (1 / 10)
      else if startswith name "gamma" then Some 1
      else if startswith name "jit" then Some (Rmax (Rabs (1 / 10 * x)) (1 / 10))
      else if Req_EM_T x 0 then Some (1 / 100000)
      else Some (Rabs (1 / 10 * x))
  end.
(** vector[par][2] = pscale *)
Definition setscale (v : list row) (i : nat) (s : option R) : list row :=
  match nth_error v i with
  | None => v
  | Some r => list_upd v i (mkRow (r_val r) (r_vary r) s (r_lin r))
  end.
Definition zero_scale (s : option R) : bool := match s with Some x => if Req_EM_T x 0 then true else false | None => false end.
(** mcmc.py:299-321: the scales of the parameters that vary, kept in the vector *)
Fixpoint pscales (v : list row) (names : list string) (c : list nat) : list row * res (list (option R)) :=
  match c, names with
  | [], _ => (v, Ok [])
  | _ :: _, [] => (v, Err IndexError)
  | i :: c', n :: names' =>
      match nth_error v i with
      | None => (v, Err IndexError)
      | Some r =>
          let '(v1, s) := if zero_scale (r_scale r) then (let s := usual_scale n (r_val r) in (setscale v i s, s)) else (v, r_scale r) in
          let '(v2, rest) := pscales v1 names' c' in
          (v2, do l <- rest; Ok (s :: l))
      end
  end.
Definition opt_add (x s : option R) (u : R) : option R := match x, s with Some x, Some s => Some (x + u * s) | _, _ => None end.
(** p0 of one ensemble, mcmc.py:327-329; [u w j] is the draw of a walker for a parameter *)
Fixpoint offsets (x s : list (option R)) (u : nat -> R) (j : nat) : list (option R) :=
  match x, s with x :: x', s :: s' => opt_add x s (u j) :: offsets x' s' u (S j) | _, _ => [] end.
Definition ensemble (x s : list (option R)) (nw : nat) (u : nat -> nat -> R) : list (list (option R)) := map (fun w => offsets x s (u w) 0) (seq 0 nw).
(** mcmc.py:284-335 of a run that does not proceed from another one: the vector, and the positions of every ensemble *)
Definition start (st : list row * option (list nat)) (names : list string) (nwalkers ensembles : nat) (u : nat -> nat -> nat -> R)
  : (list row * option (list nat)) * res (list (list (list (option R)))) :=
  let '(cache, x) := get_vary_params (snd st) (fst st) in
  match x with
  | Err e => ((fst st, cache), Err e)
  | Ok x =>
      let '(cache, ns) := name_vary_params cache (fst st) names in
      match ns with
      | Err e => ((fst st, cache), Err e)
      | Ok ns =>
          let '(v, s) := pscales (fst st) ns (match cache with Some c => c | None => [] end) in
          ((v, cache), do s <- s; Ok (map (fun e => ensemble x s (walkers nwalkers (length x)) (u e)) (seq 0 ensembles)))
      end
  end.

(** emcee's walkers_independent: all finite, no parameter the same for all walkers, and a condition number that is not large *)
Definition column (l : list (list (option R))) (j : nat) : list (option R) := map (fun p => nth j p None) l.
Definition finite_all (l : list (list (option R))) : bool := forallb (forallb (fun x => match x with Some _ => true | None => false end)) l.
Definition vals (l : list (option R)) : list R := flat_map (fun x => match x with Some x => [x] | None => [] end) l.
Definition varies (l : list R) : bool := existsb (fun x => if Req_EM_T x (mean l) then false else true) l.
Definition independent (cond : list (list (option R)) -> bool) (l : list (list (option R))) : bool :=
  finite_all l && forallb (fun j => varies (vals (column l j))) (seq 0 (length (hd [] l))) && cond l.
(** the first call of sampler.sample of a run, mcmc.py:375: a ValueError of emcee *)
Definition first_sample (cond : list (list (option R)) -> bool) (l : list (list (option R))) : res unit :=
  if independent cond l then Ok tt else Err ValueError.
