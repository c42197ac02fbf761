(** What the theorems on the prediction of the Gaussian process (C70) are stated with. *)
From Coq Require Import Reals String Arith List.
From Verif Require Import Py PyFloat Params Kepler Basis Likelihood Gp GpSpec LikeSpec CholSpec.
Import ListNotations.
Open Scope R_scope.

(** [m] is the p x n matrix of numbers [b] *)
Definition is_rect (p n : nat) (m : matrix) (b : nat -> nat -> R) : Prop :=
  length m = p /\ (forall r, In r m -> length r = n) /\ forall i j, (i < p)%nat -> (j < n)%nat -> exists r, nth_error m i = Some r /\ nth_error r j = Some (Fin (b i j)).

(** exact linear algebra for predict: cho_factor raises LinAlgError iff K is not L L^T; np.dot(Ks, cho_solve(L, r)) is
    Ks x with K x = r; np.sqrt(np.diag(Kss - np.dot(Ks, cho_solve(L, Ks.T)))) has the entries sqrt (Kss_ii - Ks_i . y) with K y = Ks_i *)
Definition exact_predict (la : linalg) : Prop := forall K Ks Kss r n p a b d, (0 < n)%nat -> (0 < p)%nat ->
  is_rect n n K a -> symmetric n a -> is_rect p n Ks b -> is_rect p p Kss d -> length r = n ->
  (forall L, factor n a L -> la_chol la K = Ok tt /\ exists x y, solves n a x (at_ r) /\ (forall i, (i < p)%nat -> solves n a (y i) (b i)) /\
     la_mean la K Ks r = map (fun i => Fin (Sum n (fun j => b i j * x j))) (seq 0 p) /\
     la_std la K Ks Kss = map (fun i => ext_sqrt (Fin (d i i - Sum n (fun j => b i j * y i j)))) (seq 0 p)) /\
  ((forall L, ~ factor n a L) -> la_chol la K = Err LinAlgError).

(** time of datum [j] *)
Definition time_at (data : list datum) (j : nat) : R := d_t (nth j data (mkDatum 0 0 0)).
(** expected square of (signal at x) - sum_j w_j (residual j), when the signal has covariance amp^2 c and the residuals are
    the signal plus independent noise: Var S(x) - 2 Cov + Var *)
Definition pred_err (amp : R) (c : R -> R -> R) (jit : R) (data : list datum) (x : R) (w : nat -> R) : R :=
  amp ^ 2 * c x x - 2 * Sum (length data) (fun j => w j * (amp ^ 2 * c x (time_at data j))) + quad (length data) (data_cov amp c jit data) w.

(** [mu] and [sd] are the linear estimate of the signal at [x] of least expected square error, and the root of that error *)
Definition best_estimate (amp : R) (c : R -> R -> R) (jit : R) (data : list datum) (res : nat -> R) (x : R) (mu sd : R) : Prop :=
  exists w, (forall w', pred_err amp c jit data x w <= pred_err amp c jit data x w') /\
    mu = Sum (length data) (fun j => w j * res j) /\ 0 <= sd /\ sd ^ 2 = pred_err amp c jit data x w.

(** gp_predict gives for every time the best estimate and its error *)
Definition predicts (la : linalg) (fwd : forward) (f : R -> R) (g : gplike) (v : list row) (k : kstate) (data : list datum) (gam jit amp : R) (c : R -> R -> R) (xp : list R) : Prop :=
  ((exists L, factor (length data) (data_cov amp c jit data) L) -> exists mu sd, snd (gp_predict fwd la g v k xp) = Ok (map Fin mu, map Fin sd) /\ length mu = length xp /\ length sd = length xp /\
     forall i x m s, nth_error xp i = Some x -> nth_error mu i = Some m -> nth_error sd i = Some s -> best_estimate amp c jit data (data_resid f gam data) x m s) /\
  ((forall p, In p data -> 0 < var_of jit p) -> exists L, factor (length data) (data_cov amp c jit data) L) /\
  ((forall L, ~ factor (length data) (data_cov amp c jit data) L) -> snd (gp_predict fwd la g v k xp) = Err LinAlgError).
