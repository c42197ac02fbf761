(** Model of radvel/kepler.py, radvel/orbit.py and src/kepler.c.
    Floats are ideal real numbers. *)
From Coq Require Import Reals List Bool ZArith.
From Verif Require Import Py.
Import ListNotations.
Open Scope R_scope.

(** [np.floor] / C [floor] on finite floats. *)
Definition np_floor (x : R) : R := IZR (Int_part x).

(** [np.tan] / C [tan]. At an exact pole the real tangent does not exist; the
    floating point function is called on the nearest double of pi/2 and returns
    the finite value 1.633123935319537e16, which is what the model returns. *)
Definition HUGE : R := 16331239353195370.
Definition np_tan (x : R) : R := if Req_EM_T (cos x) 0 then HUGE else tan x.

(** [np.sign] *)
Definition np_sign (x : R) : R :=
  if Rlt_dec x 0 then -1 else if Rlt_dec 0 x then 1 else 0.

(** kepler.py:75-76 and kepler.c:22,26 *)
Definition conv_tol : R := / 1000000000000.
Definition guess_k : R := 85 / 100.

(** E - e*sin(E) - M, kepler.py:80,103 and kepler.c:32,48 *)
Definition kepler_fi (M e E : R) : R := E - e * sin E - M.

(** np.abs(fi) > conv, kepler.py:81,104 and kepler.c:33 *)
Definition unconverged (fi : R) : bool := rltb conv_tol (Rabs fi).

(** One Danby correction for one element, kepler.py:92-101, kepler.c:38-46. *)
Definition danby (e E fi : R) : R :=
  let fip := 1 - e * cos E in
  let fipp := e * sin E in
  let fippp := 1 - fip in
  let d1 := - fi / fip in
  let d2 := - fi / (fip + d1 * fipp / 2) in
  let d3 := - fi / (fip + d2 * fipp / 2 + d2 * d2 * fippp / 6) in
  E + d3.

(** First guess, kepler.py:78. *)
Definition py_guess (M e : R) : R := M + np_sign (sin M) * guess_k * e.

(** ** Vectorised Python solver *)

(** [a[mask]] *)
Fixpoint gather (mask : list bool) (a : list R) : list R :=
  match mask, a with
  | true :: m, x :: r => x :: gather m r
  | false :: m, _ :: r => gather m r
  | _, _ => []
  end.

(** [a[mask] = v] for [v] of the right length *)
Fixpoint scatter (mask : list bool) (a v : list R) : list R :=
  match mask, a with
  | true :: m, x :: r =>
      match v with
      | y :: v' => y :: scatter m r v'
      | [] => x :: scatter m r []
      end
  | false :: m, x :: r => x :: scatter m r v
  | _, _ => a
  end.

Fixpoint map2 {A B C} (f : A -> B -> C) (a : list A) (b : list B) : list C :=
  match a, b with x :: r, y :: s => f x y :: map2 f r s | _, _ => [] end.

Fixpoint map3 {A B C D} (f : A -> B -> C -> D) (a : list A) (b : list B) (c : list C) : list D :=
  match a, b, c with x :: r, y :: s, z :: u => f x y z :: map3 f r s u | _, _, _ => [] end.

(** The [while nd > 0] loop, kepler.py:85-105. [convd] is the mask of unconverged
    elements (an index array in the first round, a boolean mask later; both
    select the same elements in the same order). [fuel] bounds the rounds; the
    Python loop has no bound. *)
Fixpoint kepler_loop (fuel : nat) (Marr eccarr Earr fiarr : list R) (convd : list bool)
  : res (list R) :=
  match fuel with
  | O => Err OutOfFuel
  | S n =>
      if existsb (fun b => b) convd then
        let ecc := gather convd eccarr in
        let E := gather convd Earr in
        let fi := gather convd fiarr in
        let E' := map3 danby ecc E fi in
        let Earr' := scatter convd Earr E' in
        let fiarr' := map3 kepler_fi Marr eccarr Earr' in
        kepler_loop n Marr eccarr Earr' fiarr' (map unconverged fiarr')
      else Ok Earr
  end.

(** numpy return values: an array or a scalar *)
Inductive npval := Arr (l : list R) | Scal (x : R).

Definition npmap (f : R -> R) (v : npval) : npval :=
  match v with Arr l => Arr (map f l) | Scal x => Scal (f x) end.

(** elements of a numpy value, in order *)
Definition npelems (v : npval) : list R := match v with Arr l => l | Scal x => [x] end.

(** kepler(Marr, eccarr), kepler.py:66-110. *)
Definition kepler (fuel : nat) (Marr eccarr : list R) : res npval :=
  let Earr := map2 py_guess Marr eccarr in
  let fiarr := map3 kepler_fi Marr eccarr Earr in
  do Earr' <- kepler_loop fuel Marr eccarr Earr fiarr (map unconverged fiarr);
  match Earr' with
  | [] => Err IndexError                 (* Earr[0] of an empty array *)
  | [x] => Ok (Scal x)
  | _ => Ok (Arr Earr')
  end.

(** mean anomaly, kepler.py:39, orbit.py:87, kepler.c:65-66 *)
Definition mean_anomaly (per tp t : R) : R :=
  2 * PI * ((t - tp) / per - np_floor ((t - tp) / per)).

(** the argument of arctan, orbit.py:90-92 (x**0.5 is sqrt), kepler.c:72 *)
Definition half_tan (e E : R) : R := sqrt ((1 + e) / (1 - e)) * np_tan (E / 2).

(** nu from E, orbit.py:92 *)
Definition nu_of_E (e E : R) : R := 2 * atan (half_tan e E).

(** true_anomaly(t, tp, per, e), orbit.py:72-94. *)
Definition true_anomaly (fuel : nat) (t : list R) (tp per e : R) : res npval :=
  let m := map (mean_anomaly per tp) t in
  let eccarr := map (fun _ => 0 + e) t in
  do e1 <- kepler fuel m eccarr;
  Ok (npmap (nu_of_E e) e1).

(** ** The C kernel, src/kepler.c *)

(** conversion double -> int: truncation toward zero *)
Definition c_trunc (x : R) : Z :=
  if Rlt_dec x 0 then (- Int_part (- x))%Z else Int_part x.

(** int sign(int x), kepler.c:5-7, called with a double argument at line 29 *)
Definition c_sign (x : R) : R := IZR (Z.sgn (c_trunc x)).

Definition MAX_ITER : nat := 30.

(** kepler.c:29 *)
Definition c_guess (M e : R) : R := M + c_sign (sin M) * guess_k * e.

(** kepler.c:33-56; [left] is MAX_ITER - count *)
Fixpoint c_kepler_loop (left : nat) (M e E : R) : res R :=
  match left with
  | O => Ok E
  | S m =>
      let fi := kepler_fi M e E in
      if unconverged fi then
        let E' := danby e E fi in
        match m with
        | O => Err ExitProcess           (* count == MAX_ITER *)
        | _ => c_kepler_loop m M e E'
        end
      else Ok E
  end.

(** double kepler(double M, double e), kepler.c:19-58 *)
Definition c_kepler (M e : R) : res R := c_kepler_loop MAX_ITER M e (c_guess M e).

(** kepler.c:72-74, velocity from the eccentric anomaly *)
Definition c_rv_of_E (e cosom sinom k E : R) : R :=
  let ratio := half_tan e E in
  let fac := 2 / (1 + ratio * ratio) in
  k * (cosom * (fac - 1) - ratio * fac * sinom + e * cosom).

(** double rv_drive(...), kepler.c:61-77 *)
Definition c_rv_drive (t per tp e cosom sinom k : R) : res R :=
  do E <- c_kepler (mean_anomaly per tp t) e;
  Ok (c_rv_of_E e cosom sinom k E).

(** rv_drive_array, src/_kepler.pyx:38-49 *)
Definition c_rv_drive_array (t : list R) (per tp e om k : R) : res npval :=
  do l <- map_res (fun x => c_rv_drive x per tp e (cos om) (sin om) k) t;
  Ok (Arr l).

(** velocity from the true anomaly, kepler.py:57,61 *)
Definition py_rv_of_nu (e om k nu : R) : R := k * (cos (nu + om) + e * cos om).

(** [orbel] *)
Record orbel := mkOrbel { o_per : R; o_tp : R; o_e : R; o_om : R; o_k : R }.

(** rv_drive(t, orbel, use_c_kepler_solver), kepler.py:20-63. [use_c] is
    [use_c_kepler_solver and _check_cext()] (an ImportError inside the C branch
    falls back to the same expression as [use_c = false]). *)
Definition rv_drive (use_c : bool) (fuel : nat) (t : list R) (o : orbel) : res npval :=
  let per := o_per o in let tp := o_tp o in let e := o_e o in
  let om := o_om o in let k := o_k o in
  if reqb e 0 then
    Ok (Arr (map (fun x => k * cos (mean_anomaly per tp x + om)) t))
  else
    let per := if rltb per 0 then / 10000 else per in
    let e := if rltb e 0 then 0 else e in
    let e := if rltb (99/100) e then 99/100 else e in
    if use_c then c_rv_drive_array t per tp e om k
    else
      do nu <- true_anomaly fuel t tp per e;
      Ok (npmap (py_rv_of_nu e om k) nu).

(** ** orbit.py: transit and periastron times *)

(** eccentric anomaly at true anomaly f, orbit.py:27,56,65 *)
Definition ee_of_f (ecc f : R) : R :=
  2 * atan (np_tan (f / 2) * sqrt ((1 - ecc) / (1 + ecc))).

(** timetrans_to_timeperi, orbit.py:6-30 (scalar [ecc]; for an array [ecc] the
    comparison raises ValueError which is swallowed, lines 20-24). *)
Definition timetrans_to_timeperi (tc per ecc omega : R) : R :=
  if rleb 1 ecc then tc
  else
    let f := PI / 2 - omega in
    let ee := ee_of_f ecc f in
    tc - per / (2 * PI) * (ee - ecc * sin ee).

(** timeperi_to_timetrans, orbit.py:33-69, scalar arguments (np.float64). *)
Definition timeperi_to_timetrans (tp per ecc omega : R) (secondary : bool) : R :=
  if rleb 1 ecc then tp
  else
    let ee :=
      if secondary then ee_of_f ecc (3 * PI / 2 - omega) + 2 * PI
      else ee_of_f ecc (PI / 2 - omega) in
    tp + per / (2 * PI) * (ee - ecc * sin ee).

(** numpy's [ee[mask] = v] with a full-length [v] (orbit.py:62): allowed only
    when [v] has as many elements as selected, or exactly one (broadcast). *)
Definition np_mask_assign (mask : list bool) (ee v : list R) : res (list R) :=
  let nsel := List.length (filter (fun b => b) mask) in
  if Nat.eqb (List.length v) nsel then Ok (scatter mask ee v)
  else if Nat.eqb (List.length v) 1 then
    Ok (scatter mask ee (repeat (nth 0 v 0) nsel))
  else Err ValueError.

(** timeperi_to_timetrans(..., secondary=True) with array arguments of equal
    length, orbit.py:48-62,67 (the [ecc >= 1] test works on a length-1 array and
    raises a swallowed ValueError on longer ones). *)
Definition timeperi_to_timetrans_secondary_array
    (tp per ecc omega : list R) : res (list R) :=
  if match ecc with [x] => rleb 1 x | _ => false end then Ok tp else
  let ee := map2 (fun ec om => ee_of_f ec (3 * PI / 2 - om)) ecc omega in
  let mask := map (fun x => rltb x 0) ee in
  do ee' <- np_mask_assign mask ee (map (fun x => x + 2 * PI) ee);
  Ok (map2 (fun tp' x => tp' + x)
        tp (map3 (fun p ec x => p / (2 * PI) * (x - ec * sin x)) per ecc ee')).
