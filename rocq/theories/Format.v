(** round_sig, sigfig, time_print: radvel/utils.py:146-219. *)
From Coq Require Import ZArith Reals String Bool List.
From Flocq Require Import Core.
From Verif Require Import Py PyFloat.
Open Scope R_scope.

(** Python's round(x, n): to the nearest multiple of 10^-n, halves to even (in exact
    arithmetic: the final conversion back to a float is not modelled) *)
Definition round_dec (x : R) (n : Z) : R := IZR (ZnearestE (x * powerRZ 10 n)) * powerRZ 10 (- n).
(** np.log10 *)
Definition log10 (x : R) : R := ln x / ln 10.

(** round_sig, utils.py:146-157 *)
Definition round_sig (x : R) (sig : Z) : R :=
  if reqb x 0 then 0 else round_dec x (sig - Zfloor (log10 (Rabs x)) - 1).

(** time_print, utils.py:198-219 *)
Definition time_print (tdiff : R) : R * string :=
  if rltb 60 tdiff then
    let tdiff := tdiff / 60 in
    if rltb 60 tdiff then
      let tdiff := tdiff / 60 in
      if rltb 24 tdiff then (tdiff / 24, "days"%string) else (tdiff, "hours"%string)
    else (tdiff, "minutes"%string)
  else (tdiff, "seconds"%string).

(** the while loop of utils.py:183-185 *)
Fixpoint sf_loop (fuel : nat) (med : R) (nd p : Z) (tmp : R) : res R :=
  if reqb tmp 0 then
    match fuel with
    | O => Err OutOfFuel
    | S f => sf_loop f med nd (p + 1) (round_dec med (nd + p))
    end
  else Ok tmp.

(** sigfig, utils.py:160-195.  [dexp x] is Decimal(str(x)).as_tuple().exponent and [ends0 x]
    is str(x)[-1] == '0'; both are arbitrary. *)
Definition sigfig (dexp : R -> Z) (ends0 : R -> bool) (fuel : nat) (med errlow : R) (errhigh : option R) : res (R * R * R) :=
  let errhigh := match errhigh with Some h => h | None => errlow end in
  let ndec := dexp errlow in
  let ndec := if (Z.abs ndec <? Z.abs (dexp errhigh))%Z then dexp errhigh else ndec in
  if (ndec <? -1)%Z then
    let tmpmed := round_dec med (Z.abs ndec) in
    if negb (reqb med 0) then
      do m <- sf_loop fuel med (Z.abs ndec) 0 tmpmed; Ok (m, errlow, errhigh)
    else Ok (med, errlow, errhigh)
  else if ((ndec =? -1)%Z && ends0 errhigh && ((ndec =? -1)%Z && ends0 errlow) || (ndec =? 0)%Z)%bool then
    Ok (IZR (ZnearestE med), IZR (Ztrunc (round_sig errlow 2)), IZR (ZnearestE errhigh))
  else Ok (round_dec med (Z.abs ndec), errlow, errhigh).
