(** What the theorems on derived parameters (C66) are stated with. *)
From Coq Require Import ZArith Reals String Arith List.
From Verif Require Import Py PyFloat Params ParamsSpec Basis BasisThms Mass MassProofs PostProc PostProcSpec Derive.
Import ListNotations.
Open Scope R_scope.
Open Scope string_scope.

(** parameter [k] is held fixed at [x] *)
Definition held_at (h : heap) (d : dict nat) (k : string) (x : R) : Prop :=
  exists p, get_param h d k = Some p /\ p_vary p <> VBool true /\ p_value p = Some x.
(** the value of parameter [k] in each of the samples *)
Definition dict_samples (h : heap) (d : dict nat) (chains : table) (k : string) (col : list R) : Prop :=
  (exists x, held_at h d k x /\ col = repeat x (t_len chains)) \/
  ((forall x, ~ held_at h d k x) /\ dget (t_cols chains) k = Some col).
(** [el]: the elements of planet [n] in sample [i] *)
Definition sample_elements (h : heap) (ps : params) (chains : table) (b : string) (names : list string) (n i : nat) (el : elements) : Prop :=
  exists vals, (forall q, In q names -> exists c, dict_samples h (ps_items ps) chains (key q n) c /\ vals q = nth i c 0) /\ el = els b vals.

(** the mass that gives the semi-amplitude if the planet is light exceeds a tenth of the star *)
Definition massive (c : uconst) (x : mrow) : Prop :=
  exists m, semi_amplitude c "earth" m (r_P x) (r_M x) (r_e x) = Ok (r_K x) /\ 1 / 10 < m * c_mearth c / (r_M x * c_msun c).
(** [m] (Earth masses), [a] (au), [mu] belong to semi-amplitude, period, eccentricity and stellar mass *)
Definition laws (c : uconst) (x : mrow) (m a mu : R) : Prop :=
  (a * c_au c) ^ 3 = c_G c * (r_M x * c_msun c + m * c_mearth c) * (r_P x * 86400) ^ 2 / (4 * PI ^ 2) /\
  mu * (r_M x * c_msun c) = m * c_mearth c /\ 0 < m /\ 0 < a.
(** the root finder finds the positive root of the functions it is given *)
Definition root_finds (c : uconst) (root : (R -> R) -> R -> R) (x : mrow) : Prop :=
  0 < root (msini_func c x) (c_mjup c) /\ msini_func c x (root (msini_func c x) (c_mjup c)) = 0.
(** the radius of planet [n] is given *)
Definition has_radius (planet : option (dict R)) (n : nat) (loc scale : R) : Prop :=
  exists pl, planet = Some pl /\ dget pl (key "rp" n) = Some loc /\ dget pl (key "rp_err" n) = Some scale.
(** columns listed for planet [n] *)
Definition listed_for (planet : option (dict R)) (n : nat) (l : list string) : Prop :=
  (exists loc scale, has_radius planet n loc scale /\ l = [key "mpsini" n; key "a" n; key "musini" n; key "rhop" n]) \/
  ((forall loc scale, ~ has_radius planet n loc scale) /\ l = [key "mpsini" n; key "a" n; key "musini" n]).

(** the names of the derived columns *)
Definition DNAMES : list string := ["mpsini"; "a"; "musini"; "rp"; "rhop"].
(** semi-amplitude, period, stellar mass and eccentricity of planet [n] in sample [i]; the stellar mass is
    the absolute value of the draw *)
Definition sample_row (h : heap) (ps : params) (chains : table) (draw_m : R -> R -> list R) (b : string) (names : list string) (loc scale : R) (n i : nat) (x : mrow) : Prop :=
  exists el, sample_elements h ps chains b names n i el /\ x = mkMrow (el_k el) (el_per el) (Rabs (nth i (draw_m loc scale) 0)) (el_e el).
