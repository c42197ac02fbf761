(** Model of radvel/fitting.py, maxlike_fitting.

    scipy.optimize.minimize is an argument: an optimiser is a tree of objective
    evaluations.  It starts from the initial values, may look at every value of the
    objective, and ends with the solution it reports (or raises). *)
From Coq Require Import Reals String Arith Bool List.
From Verif Require Import Py PyFloat Params Basis Likelihood.
Import ListNotations.
Open Scope R_scope.

Inductive opt :=
| Report (x : list (option R))
| Raise (e : exn)
| Evaluate (x : list (option R)) (k : ext -> opt).

Definition ext_neg (x : ext) : ext :=
  match x with Fin r => Fin (- r) | PInf => NInf | NInf => PInf | NaN => NaN end.

Section Fit.
  (** [lp]: Posterior.logprob on the rows of the shared Vector *)
  Variable lp : list row -> list row * res ext.

  (** scipy.optimize.minimize with objective Likelihood.neglogprob_array,
      likelihood.py:188-189 and posterior.py:178-193; the state is the rows and
      likelihood.vary_params *)
  Fixpoint minimise (o : opt) (st : list row * option (list nat))
    : (list row * option (list nat)) * res (list (option R)) :=
    match o with
    | Report x => (st, Ok x)
    | Raise e => (st, Err e)
    | Evaluate x k =>
        let '(st1, r) := logprob_array lp st x in
        match r with
        | Err e => (st1, Err e)
        | Ok y => minimise (k (ext_neg y)) st1
        end
    end.

  (** The posterior: rows, post.vary_params, post.likelihood.vary_params, Parameter
      objects. *)
  Record fitst := mkFit { f_rows : list row; f_cp : option (list nat); f_cl : option (list nat); f_heap : heap }.

  (** print of post.logprob(), fitting.py:33, 43 (the text itself is not modelled) *)
  Definition show (verbose : bool) (s : fitst) : fitst * res unit :=
    if verbose then
      let '(v, r) := lp (f_rows s) in (mkFit v (f_cp s) (f_cl s) (f_heap s), do _ <- r; Ok tt)
    else (s, Ok tt).

  (** maxlike_fitting, fitting.py:14-47.  [d], [idx]: the Parameters dictionary and
      vector.indices.  The solution reported by the optimiser is dropped (line 37).
      print(post), line 45, is not modelled.  When vector_to_dict raises, the model keeps
      the old heap (the code may have written some values). *)
  Definition maxlike_fitting (d idx : dict nat) (optimiser : list (option R) -> opt) (verbose : bool) (s : fitst)
    : fitst * res unit :=
    let '(s1, r1) := show verbose s in
    match r1 with
    | Err e => (s1, Err e)
    | Ok _ =>
        let '(cp, x0) := get_vary_params (f_cp s1) (f_rows s1) in
        match x0 with
        | Err e => (mkFit (f_rows s1) cp (f_cl s1) (f_heap s1), Err e)
        | Ok x0 =>
            let '((v, cl), r2) := minimise (optimiser x0) (f_rows s1, f_cl s1) in
            match r2 with
            | Err e => (mkFit v cp cl (f_heap s1), Err e)
            | Ok _ =>
                match vector_to_dict d idx v (f_heap s1) with
                | Err e => (mkFit v cp cl (f_heap s1), Err e)
                | Ok h => show verbose (mkFit v cp cl h)
                end
            end
        end
    end.

  (** ** what the optimiser did: points with the log-probabilities obtained *)
  Fixpoint trace (o : opt) (st : list row * option (list nat)) : list (list (option R) * ext) :=
    match o with
    | Report _ | Raise _ => []
    | Evaluate x k =>
        let '(st1, r) := logprob_array lp st x in
        match r with Err _ => [] | Ok y => (x, y) :: trace (k (ext_neg y)) st1 end
    end.
  Fixpoint reported (o : opt) (st : list row * option (list nat)) : option (list (option R)) :=
    match o with
    | Report x => Some x
    | Raise _ => None
    | Evaluate x k =>
        let '(st1, r) := logprob_array lp st x in
        match r with Err _ => None | Ok y => reported (k (ext_neg y)) st1 end
    end.
End Fit.
