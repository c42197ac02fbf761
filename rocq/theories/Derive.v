(** Model of the computation in derive, radvel/driver.py:593-684 (what it reads and writes: Pipeline.v).

    Numbers are real.  The random draws of np.random.normal are arguments.  A stellar mass that is exactly
    0 stays 0 (the code then produces inf or nan); such draws are excluded in the theorems.  The printed
    warning (lines 604-605) is not modelled. *)
From Coq Require Import ZArith Reals String Arith Bool List.
From Verif Require Import Py PyFloat Params Basis Mass PostProc.
Import ListNotations.
Open Scope R_scope.
Open Scope string_scope.

(** driver.py:607-610: a column with the value of every parameter that is not varied.  The value comes
    from the dictionary; a value None makes the arithmetic raise later. *)
Definition not_varied (p : param) : bool := match p_vary p with VBool b => negb b | VEmpty => true end.
Definition dict_step (h : heap) (d : dict nat) (t : table) (par : string) : res table :=
  match get_param h d par with
  | None => Err (KeyError par)
  | Some p =>
      if not_varied p then
        match p_value p with
        | Some x => Ok (mkTable (t_len t) (dset (t_cols t) par (repeat x (t_len t))))
        | None => Err TypeError
        end
      else Ok t
  end.
Definition fill_dict (h : heap) (d : dict nat) (t : table) : res table := for_each (dkeys d) (dict_step h d) t.

(** np.random.normal(loc, scale, size): [draw] is what it returns *)
Definition normal (draw : R -> R -> list R) (loc scale : R) : res (list R) :=
  if rltb scale 0 then Err ValueError else Ok (draw loc scale).

(** driver.py:599-602 *)
Definition reflect (l : list R) : list R := map (fun m => if rleb m 0 then Rabs m else m) l.

Section Derive.
  Variables (c : uconst) (root : (R -> R) -> R -> R).

  (** element by element *)
  Fixpoint zip2 (f : R -> R -> R) (l l' : list R) : list R :=
    match l, l' with a :: r, b :: r' => f a b :: zip2 f r r' | _, _ => [] end.
  Fixpoint mrows (k per m e : list R) : list mrow :=
    match k, per, m, e with
    | a :: k, b :: per, x :: m, y :: e => mkMrow a b x y :: mrows k per m e
    | _, _, _, _ => []
    end.

  (** columns of the chain and outcols *)
  Definition dstate : Type := dict (list R) * list string.
  Definition put (st : dstate) (key : string) (col : list R) : dstate := (dset (fst st) key col, snd st).
  Definition list_out (st : dstate) (key : string) : dstate := (fst st, (snd st ++ [key])%list).

  (** one planet, driver.py:616-664.  [synth]: the columns of synthchains; [planet]: P.planet, if there is
      one; [draw_r i]: the draws for the radius of planet i.  If synthchains lacks a column the code falls
      back on the set-up file (lines 622-626); that happens only for planets the posterior does not have,
      and the model stops. *)
  Definition derive_planet (synth : dict (list R)) (mstar : list R) (planet : option (dict R)) (draw_r : nat -> R -> R -> list R)
      (st : dstate) (i : nat) : res dstate :=
    do per <- dget_res synth (key "per" i);
    do k <- dget_res synth (key "k" i);
    do e <- dget_res synth (key "e" i);
    do mpsini <- Msini root c "earth" (mrows k per mstar e);
    let st := list_out (put st (key "mpsini" i) mpsini) (key "mpsini" i) in
    let mtotal := zip2 (fun m p => m + p * c_mearth c / c_msun c) mstar mpsini in
    let a := zip2 (semi_major_axis c) per mtotal in
    let st := list_out (put st (key "a" i) a) (key "a" i) in
    let musini := zip2 (fun p m => p * c_mearth c / (m * c_msun c)) mpsini mstar in
    let st := list_out (put st (key "musini" i) musini) (key "musini" i) in
    match planet with
    | None => Ok st
    | Some pl =>
        match dget pl (key "rp" i), dget pl (key "rp_err" i) with
        | Some loc, Some scale =>
            do rp <- normal (draw_r i) loc scale;
            let st := put st (key "rp" i) rp in
            do rho <- map_res (fun mr => density c "earth" (fst mr) (snd mr)) (combine mpsini rp);
            Ok (list_out (put st (key "rhop" i) rho) (key "rhop" i))
        | _, _ => Ok st
        end
    end.

  (** driver.py:666-676: quantiles[outcols] *)
  Definition three_quantiles (l : list R) : R * R * R := (quantile (159 / 1000) l, quantile (1 / 2) l, quantile (841 / 1000) l).
  Definition quantile_table (cols : dict (list R)) (out : list string) : res (dict (R * R * R)) :=
    for_each out (fun q k => do l <- dget_res cols k; Ok (dset q k (three_quantiles l))) [].

  (** driver.py:593-676; None: no stellar parameters in the set-up file, nothing is derived *)
  Definition derive (h : heap) (ps : params) (nplanets : nat) (chains : table) (stellar : option (dict R)) (draw_m : R -> R -> list R)
      (planet : option (dict R)) (draw_r : nat -> R -> R -> list R) : res (option (dstate * dict (R * R * R))) :=
    match stellar with
    | None => Ok None
    | Some stl =>
        do loc <- dget_res stl "mstar";
        do scale <- dget_res stl "mstar_err";
        do mstar <- normal draw_m loc scale;
        let mstar := reflect mstar in
        do t <- fill_dict h (ps_items ps) chains;
        do synth <- to_synth_table (b_name (ps_basis ps)) (b_num (ps_basis ps)) t;
        do st <- for_each (seq 1 nplanets) (derive_planet synth mstar planet draw_r) (t_cols chains, []);
        do q <- quantile_table (fst st) (snd st);
        Ok (Some (st, q))
    end.
End Derive.
