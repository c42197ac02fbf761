(** What the theorems on the value of the Gaussian process likelihood (C69) are stated with. *)
From Coq Require Import Reals String Arith List.
From Verif Require Import Py PyFloat Params Kepler Basis Likelihood Gp GpSpec LikeSpec.
Import ListNotations.
Open Scope R_scope.

(** lower triangular with positive diagonal *)
Definition lower (n : nat) (L : nat -> nat -> R) : Prop :=
  (forall i, (i < n)%nat -> 0 < L i i) /\ forall i j, (i < j)%nat -> (j < n)%nat -> L i j = 0.
(** a = L L^T *)
Definition factor (n : nat) (a L : nat -> nat -> R) : Prop :=
  lower n L /\ forall i j, (i < n)%nat -> (j < n)%nat -> a i j = Sum n (fun k => L i k * L j k).
(** a x = r *)
Definition solves (n : nat) (a : nat -> nat -> R) (x r : nat -> R) : Prop := forall i, (i < n)%nat -> Sum n (fun k => a i k * x k) = r i.

(** log density at L z of the image under L of independent standard normal variables *)
Definition std_normal (z : R) : R := exp (- (z ^ 2 / 2)) / sqrt (2 * PI).
Definition mvn (n : nat) (L : nat -> nat -> R) (z : nat -> R) : R := Sum n (fun i => ln (std_normal (z i) / L i i)).

(** entry [i], 0 beyond the end *)
Definition at_ (l : list R) (i : nat) : R := nth i l 0.

(** exact linear algebra: cho_factor and cho_solve solve K x = r if K is L L^T and raise LinAlgError if it is not, slogdet
    is ln det K = 2 sum ln L_ii; an entry that is not finite is refused with ValueError *)
Definition exact_linalg (la : linalg) : Prop := forall m r,
  (forall n a, (0 < n)%nat -> is_matrix n m a -> symmetric n a -> length r = n ->
    (forall L, factor n a L -> exists x, solves n a x (at_ r) /\ la_quad la m r = Ok (Sum n (fun i => at_ r i * x i)) /\ la_logdet la m = Fin (2 * Sum n (fun i => ln (L i i)))) /\
    ((forall L, ~ factor n a L) -> la_quad la m r = Err LinAlgError)) /\
  ((exists row x, In row m /\ In x row /\ isfinite x = false) -> la_quad la m r = Err ValueError).

(** the hyper-parameter [s] of the kernel has the value [x] in the vector *)
Definition hyper (g : gplike) (v : list row) (s : string) (x : option R) : Prop := exists name i r,
  In name (g_hnames g) /\ In name (dkeys (l_indices (g_like g))) /\ hkey name = Ok s /\ dget (l_indices (g_like g)) name = Some i /\ nth_error v i = Some r /\ r_val r = x.
(** the hyper-parameter names of the likelihood denote different hyper-parameters of its kernel, and have a place in the vector *)
Definition well_named (g : gplike) (v : list row) : Prop :=
  (forall name, In name (g_hnames g) -> In name (dkeys (l_indices (g_like g))) ->
     exists s i r, hkey name = Ok s /\ In s (needed (g_kind g)) /\ dget (l_indices (g_like g)) name = Some i /\ nth_error v i = Some r) /\
  forall n1 n2 s, In n1 (g_hnames g) -> In n2 (g_hnames g) -> hkey n1 = Ok s -> hkey n2 = Ok s -> n1 = n2.
(** the kernel has its hyper-parameters and the distances of the data *)
Definition kernel_ready (g : gplike) (k : kstate) : Prop :=
  k_dist k = cdist (l_x (g_like g)) (l_x (g_like g)) /\ forall s, In s (needed (g_kind g)) -> In s (dkeys (k_h k)).

(** covariance of the data for a kernel amp^2 c, with uncertainties and jitter on the diagonal *)
Definition data_cov (amp : R) (c : R -> R -> R) (jit : R) (data : list datum) (i j : nat) : R :=
  let p := nth i data (mkDatum 0 0 0) in let q := nth j data (mkDatum 0 0 0) in
  amp ^ 2 * c (d_t p) (d_t q) + if Nat.eqb i j then var_of jit p else 0.
(** residuals of the data *)
Definition data_resid (f : R -> R) (gam : R) (data : list datum) (i : nat) : R :=
  let p := nth i data (mkDatum 0 0 0) in d_y p - gam - f (d_t p).

(** gp_logprob is the log density of the residuals under normal noise with this covariance if that is L L^T, as it is when all
    uncertainties are positive, and -inf if it is not *)
Definition is_density (la : linalg) (fwd : forward) (f : R -> R) (g : gplike) (v : list row) (k : kstate) (data : list datum) (gam jit amp : R) (c : R -> R -> R) : Prop :=
  (forall L z, factor (length data) (data_cov amp c jit data) L -> solves (length data) L z (data_resid f gam data) ->
     snd (gp_logprob fwd la g v k) = Ok (Fin (mvn (length data) L z))) /\
  ((forall p, In p data -> 0 < var_of jit p) -> exists L z, factor (length data) (data_cov amp c jit data) L /\ solves (length data) L z (data_resid f gam data)) /\
  ((forall L, ~ factor (length data) (data_cov amp c jit data) L) -> snd (gp_logprob fwd la g v k) = Ok NInf).
