(** Masses, semi-amplitudes, densities: radvel/utils.py:481-640 and K_0 (line 16-19). *)
From Coq Require Import Reals String Ascii Arith Bool List.
From Verif Require Import Py PyFloat.
Import ListNotations.
Open Scope R_scope.

(** str.lower() on ASCII *)
Definition lower_char (c : ascii) : ascii :=
  let n := nat_of_ascii c in if (Nat.leb 65 n && Nat.leb n 90)%bool then ascii_of_nat (n + 32) else c.
Fixpoint lower (s : string) : string :=
  match s with EmptyString => EmptyString | String c r => String (lower_char c) (lower r) end.

(** astropy's constants, as arbitrary positive numbers (SI units) *)
Record uconst := mkUconst { c_msun : R; c_mjup : R; c_mearth : R; c_rjup : R; c_rearth : R; c_G : R; c_au : R }.
Definition uconst_ok (c : uconst) : Prop :=
  0 < c_msun c /\ 0 < c_mjup c /\ 0 < c_mearth c /\ 0 < c_rjup c /\ 0 < c_rearth c /\ 0 < c_G c /\ 0 < c_au c.

Definition K_0 : R := 284329 / 10000.
(** unit conversions; u.year is 365.25 d *)
Definition day_to_year (P : R) : R := P / (36525 / 100).
Definition day_to_sec (P : R) : R := P * 86400.

(** a ** p for floats; only positive bases are modelled (Rpower) *)
Definition pw (a p : R) : R := Rpower a p.

(** mass units: the unit in Jupiter masses; any other string raises Exception *)
Definition in_mjup (c : uconst) (units : string) : res R :=
  if String.eqb (lower units) "jupiter" then Ok 1
  else if String.eqb (lower units) "earth" then Ok (c_mearth c / c_mjup c)
  else Err PlainException.

(** semi_amplitude, utils.py:481-513 *)
Definition semi_amplitude (c : uconst) (units : string) (msini P Mtotal e : R) : res R :=
  let P := day_to_year P in
  do u <- in_mjup c units;
  let msini := msini * u in
  Ok (K_0 * pw (1 - e ^ 2) (- (1 / 2)) * msini * pw P (- (1 / 3)) * pw Mtotal (- (2 / 3))).

(** semi_major_axis, utils.py:515-539 *)
Definition semi_major_axis (c : uconst) (P Mtotal : R) : R :=
  let M := Mtotal * c_msun c in
  let P := day_to_sec P in
  pw (P ^ 2 * c_G c * M / (4 * PI ^ 2)) (1 / 3) / c_au c.

(** One element of the array arguments of Msini. *)
Record mrow := mkMrow { r_K : R; r_P : R; r_M : R; r_e : R }.

(** utils.py:575, Mp << Mstar; (Mstar*Msun)/Msun is Mstar *)
Definition msini_light (c : uconst) (x : mrow) : R :=
  r_K x / K_0 * sqrt (1 - r_e x ^ 2) * pw (r_M x * c_msun c / c_msun c) (2 / 3) * pw (day_to_year (r_P x)) (1 / 3).
(** utils.py:578 *)
Definition heavy (c : uconst) (x : mrow) : bool :=
  rltb (1 / 10) (msini_light c x * c_mjup c / c_msun c / (r_M x * c_msun c / c_msun c)).

(** utils.py:583, 591-596: the function given to the root finder (kg) *)
Definition msini_a (c : uconst) (x : mrow) : R :=
  r_K x * pw (2 * PI * c_G c / day_to_sec (r_P x)) (- (1 / 3)) * sqrt (1 - r_e x ^ 2).
Definition msini_func (c : uconst) (x : mrow) (m : R) : R :=
  m - msini_a c x * pw (r_M x * c_msun c + m) (2 / 3).

(** Msini, utils.py:542-611.  [root] is scipy.optimize.root: function, starting point ->
    sol.x[0]; whether it converged is not looked at.  The four arrays have equal
    lengths (a scalar call is an array of length 1). *)
Definition Msini (root : (R -> R) -> R -> R) (c : uconst) (units : string) (l : list mrow) : res (list R) :=
  let ms := map (msini_light c) l in
  let ms := if existsb (heavy c) l
            then map (fun m => m / c_mjup c) (map (fun x => root (msini_func c x) (c_mjup c)) l)
            else ms in
  if String.eqb (lower units) "jupiter" then Ok ms
  else if String.eqb (lower units) "earth" then Ok (map (fun m => m * c_mjup c / c_mearth c) ms)
  else Err PlainException.

(** density, utils.py:614-640, in g/cm^3 (1 kg/m^3 = 1/1000 g/cm^3) *)
Definition density (c : uconst) (units : string) (mass radius : R) : res R :=
  do (um, ur) <- (if String.eqb (lower units) "earth" then Ok (c_mearth c, c_rearth c)
                  else if String.eqb (lower units) "jupiter" then Ok (c_mjup c, c_rjup c)
                  else Err PlainException);
  let vol := 4 / 3 * PI * (radius * ur) ^ 3 in
  Ok (mass * um / vol / 1000).
