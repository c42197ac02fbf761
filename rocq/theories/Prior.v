(** Model of radvel/prior.py.  A prior is evaluated on the basis of the
    parameter set, the index dictionary and the rows of the Vector
    ([prior(params, vector)]); params and vector.params are the same object
    (posterior.py:21-24, likelihood.py:29).  A nan parameter value raises
    TypeError here where numpy would propagate it.  Python's NotImplementedError
    is represented by its base class RuntimeError. *)
From Coq Require Import Reals String Arith Bool List.
From Verif Require Import Py PyFloat Params Kepler Basis.
Import ListNotations.
Open Scope R_scope.

Inductive prior :=
| PGaussian (param : string) (mu sigma : R)
| PEcc (planets : list nat) (upperlims : list R)
| PPosK (num_planets : nat)
| PHard (param : string) (minval maxval : ext)
| PSecEcl (planet : nat) (ts ts_err : R)
| PJeffreys (param : string) (minval maxval : R) (normalization : ext)
| PModJeffreys (param : string) (minval maxval kneeval : R) (normalization : ext)
  (* pdf_estimate (scipy's gaussian_kde) and np.interp are arguments *)
| PNumerical (param_list : list string) (logpdf : list R -> res ext) (interp : R -> R)
| PUser (param_list : list string) (func : list R -> res ext) (transform_func : option (R -> res R))
| PBaseline (param : string) (baseline duration : R)
  (* a user's subclass of Prior: attributes param and extra_constraint, whether
     __call__ has the keyword finite, __call__ and transform *)
| PCustom (param : option string) (extra : bool) (has_finite : bool)
    (func : bool -> dict nat -> list row -> res ext) (trans : R -> res R).

(** ** Constructors *)

(** EccentricityPrior.__init__, prior.py:99-113: an int or a list of planets, a
    float or a list of limits *)
Definition ecc_prior_init (planets : nat + list nat) (lims : R + list R) : res prior :=
  let pl := match planets with inl n => seq 1 n | inr l => l end in
  match lims with
  | inl u => Ok (PEcc pl (repeat u (length pl)))
  | inr l => if Nat.eqb (length l) (length pl) then Ok (PEcc pl l) else Err AssertionError
  end.

(** Jeffreys.__init__, prior.py:328-333 (Python floats: a zero minval raises) *)
Definition jeffreys_init (param : string) (minval maxval : R) : res prior :=
  if reqb minval 0 then Err ZeroDivisionError
  else Ok (PJeffreys param minval maxval (ext_div (Fin 1) (ext_log (Fin (maxval / minval))))).

(** ModifiedJeffreys.__init__, prior.py:381-389 *)
Definition mod_jeffreys_init (param : string) (minval maxval kneeval : R) : res prior :=
  if reqb (minval - kneeval) 0 then Err ZeroDivisionError
  else
    let norm := ext_div (Fin 1) (ext_log (Fin ((maxval - kneeval) / (minval - kneeval)))) in
    if rltb kneeval minval then Ok (PModJeffreys param minval maxval kneeval norm) else Err AssertionError.

(** ** Calls *)

Definition ext_leb (a b : ext) : bool :=
  match a, b with
  | NaN, _ | _, NaN => false
  | Fin x, Fin y => rleb x y
  | NInf, _ | _, PInf => true
  | _, _ => false
  end.

(** vector.vector[vector.indices[key]][0] *)
Definition rowval (idx : dict nat) (v : list row) (k : string) : res R :=
  do i <- dget_res idx k; vget v i.

Definition str_mem (s : string) (l : list string) : bool := existsb (String.eqb s) l.

(** the log density of a normal distribution as written at prior.py:41, 300 *)
Definition normal_log (d sigma : ext) : ext :=
  let z := ext_div d sigma in
  ext_sub (ext_mul (Fin (- (1 / 2))) (ext_mul z z))
          (ext_mul (Fin (1 / 2)) (ext_log (ext_mul (ext_mul (ext_mul sigma sigma) (Fin 2)) (Fin PI)))).

(** eccentricity of a planet, prior.py:122-134; None: no branch taken *)
Definition ecc_of (parnames : list string) (idx : dict nat) (v : list row) (n : nat) : res R :=
  if str_mem "e" parnames then rowval idx v (key "e" n)
  else if str_mem "secosw" parnames then
    do a <- rowval idx v (key "secosw" n); do b <- rowval idx v (key "sesinw" n); Ok (a ^ 2 + b ^ 2)
  else if str_mem "ecosw" parnames then
    do a <- rowval idx v (key "ecosw" n); do b <- rowval idx v (key "esinw" n); Ok (sqrt (a ^ 2 + b ^ 2))
  else if str_mem "se" parnames then
    do a <- rowval idx v (key "se" n); Ok (a ^ 2)
  else Err RuntimeError.                     (* UnboundLocalError *)

Definition reject (finite : bool) : ext := if finite then Fin (- 10 ^ 100) else NInf.

(** the loop of prior.py:121-137: Some x when it returns early *)
Fixpoint ecc_loop (finite : bool) (parnames : list string) (idx : dict nat) (v : list row)
    (pl : list nat) (lims : list R) : res (option ext) :=
  match pl with
  | [] => Ok None
  | n :: pl' =>
      do ecc <- ecc_of parnames idx v n;
      match lims with
      | [] => Err IndexError
      | u :: lims' =>
          if rltb u ecc || rltb ecc 0 then Ok (Some (reject finite))
          else ecc_loop finite parnames idx v pl' lims'
      end
  end.

(** EccentricityPrior.__call__, prior.py:115-139 *)
Definition ecc_call (finite : bool) (pb : basis) (idx : dict nat) (v : list row)
    (pl : list nat) (lims : list R) : res ext :=
  do o <- ecc_loop finite (split (b_name pb)) idx v pl lims;
  Ok (match o with
      | Some x => x
      | None => ext_opp (ext_sum (map (fun u => ext_log (Fin u)) lims))
      end).

(** k of prior.py:177-180 *)
Definition k_of (idx : dict nat) (v : list row) (n : nat) : res R :=
  match dget idx (key "k" n) with
  | Some i => vget v i
  | None => do x <- rowval idx v (key "logk" n); Ok (exp x)
  end.

Fixpoint posk_loop (finite : bool) (idx : dict nat) (v : list row) (ns : list nat) : res ext :=
  match ns with
  | [] => Ok (Fin 0)
  | n :: r => do k <- k_of idx v n; if rltb k 0 then Ok (reject finite) else posk_loop finite idx v r
  end.

(** utils.t_to_phase_vector, utils.py:373-383, given tc and P of the planet *)
Definition phase_of (t tc P : R) : ext :=
  if reqb P 0 then NaN else Fin ((t - tc - np_floor ((t - tc) / P) * P) / P).

(** SecondaryEclipsePrior.__call__, prior.py:283-302 (planet numbers start at 1) *)
Definition sececl_call (pb : basis) (v : list row) (n : nat) (ts ts_err : R) : res ext :=
  do w <- v_to_synth pb v false None;
  do tp <- vget w (5 * n - 4); do per <- vget w (5 * n - 5);
  do ecc <- vget w (5 * n - 3); do omega <- vget w (5 * n - 2);
  let pred := timeperi_to_timetrans tp per ecc omega true in
  let ts_phase := phase_of pred tp per in
  let pts := phase_of ts tp per in
  Ok (normal_log (ext_sub ts_phase pts) (ext_div (Fin ts_err) (Fin per))).

(** has the class a keyword argument finite? *)
Definition takes_finite (p : prior) : bool :=
  match p with PEcc _ _ | PPosK _ => true | PCustom _ _ b _ _ => b | _ => false end.

(** prior(params, vector) with finite as given or defaulted *)
Definition prior_eval (finite : bool) (pb : basis) (idx : dict nat) (v : list row) (p : prior) : res ext :=
  match p with
  | PGaussian param mu sigma =>
      do x <- rowval idx v param; Ok (normal_log (Fin (x - mu)) (Fin sigma))
  | PEcc pl lims => ecc_call finite pb idx v pl lims
  | PPosK n => posk_loop finite idx v (seq 1 n)
  | PHard param mn mx =>
      do x <- rowval idx v param;
      Ok (if ext_leb (Fin x) mn || ext_leb mx (Fin x) then NInf
          else if isfinite mn && isfinite mx then ext_opp (ext_log (ext_sub mx mn)) else Fin 0)
  | PSecEcl n ts err => sececl_call pb v n ts err
  | PJeffreys param mn mx norm =>
      do x <- rowval idx v param;
      Ok (if rltb x mn || rltb mx x then NInf else ext_sub (ext_log norm) (ext_log (Fin x)))
  | PModJeffreys param mn mx knee norm =>
      do x <- rowval idx v param;
      Ok (if rltb mx x || rltb x mn then NInf else ext_sub (ext_log norm) (ext_log (Fin (x - knee))))
  | PNumerical pl logpdf _ => do xs <- map_res (rowval idx v) pl; logpdf xs
  | PUser pl func _ => do xs <- map_res (rowval idx v) pl; func xs
  | PBaseline param base dur =>
      do x <- rowval idx v param;
      let per := if startswith param "logper" then exp x else x in
      Ok (if rleb (per - dur) base then Fin 0 else ext_log (ext_div (Fin (base + dur)) (Fin per)))
  | PCustom _ _ _ func _ => func finite idx v
  end.

(** prior(params, vector) *)
Definition prior_call := prior_eval false.
(** prior(params, vector, finite=True): TypeError without that keyword *)
Definition prior_call_finite (pb : basis) (idx : dict nat) (v : list row) (p : prior) : res ext :=
  if takes_finite p then prior_eval true pb idx v p else Err TypeError.

(** ** Attributes *)
Definition prior_param (p : prior) : option string :=
  match p with
  | PGaussian s _ _ | PHard s _ _ | PJeffreys s _ _ _ | PModJeffreys s _ _ _ _ | PBaseline s _ _ => Some s
  | PCustom o _ _ _ _ => o
  | _ => None
  end.
Definition prior_extra (p : prior) : bool :=
  match p with PEcc _ _ | PPosK _ | PSecEcl _ _ _ => true | PCustom _ b _ _ _ => b | _ => false end.

(** prior.transform(u); [ppf] is scipy's standard normal quantile function *)
Definition transform (ppf : R -> R) (p : prior) (u : R) : res R :=
  match p with
  | PGaussian _ mu sigma => Ok (mu + sigma * ppf u)
  | PHard _ mn mx =>
      match mn, mx with Fin a, Fin b => Ok (a + u * (b - a)) | _, _ => Err ValueError end
  | PJeffreys _ mn mx _ => Ok (mn * exp (u * ln (mx / mn)))
  | PModJeffreys _ mn mx knee norm =>
      match norm with
      | Fin c => if reqb c 0 then Err TypeError     (* an infinite exponent; not for minval < maxval *)
                 else Ok (knee + (mn - knee) * exp (u / c))
      | _ => Err TypeError
      end
  | PNumerical _ _ interp => Ok (interp u)
  | PUser _ _ None => Err TypeError
  | PUser _ _ (Some f) => f u
  | PCustom _ _ _ _ f => f u
  | _ => Err RuntimeError
  end.
