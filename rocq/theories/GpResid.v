(** GPLikelihood.residuals, likelihood.py:473-479. *)
From Coq Require Import Reals String Arith Bool List.
From Verif Require Import Py PyFloat Params Kepler Basis Likelihood Gp.
Import ListNotations.
Open Scope R_scope.

(** data minus offset, model and predicted mean; self.model is called again after predict.  Shapes: the three arrays have the length of
    the data, else numpy raises ValueError (broadcasting of arrays of length 1 is not modelled) *)
Definition gp_residuals (fwd : forward) (la : linalg) (g : gplike) (v : list row) (k : kstate) : kstate * res (list ext) :=
  match gp_predict fwd la g v k (l_x (g_like g)) with
  | (k1, Err e) => (k1, Err e)
  | (k1, Ok (mu, _)) => (k1, do r <- gp_resids fwd (g_like g) v;
      if Nat.eqb (length mu) (length r) then Ok (map2 ext_sub (map Fin r) mu) else Err ValueError)
  end.
