(** Calendar date <-> Julian date: radvel/utils.py:412-441 (date2jd, jd2date).

    The arithmetic takes a rounding function: the identity for exact real arithmetic,
    [rnd64] for IEEE binary64 (no overflow occurs in the ranges used). *)
From Coq Require Import Reals ZArith Bool List.
From Flocq Require Import Core.
From Verif Require Import Py.
Open Scope R_scope.

Definition exact (x : R) : R := x.
Definition rnd64 : R -> R := round radix2 (FLT_exp (-1074) 53) ZnearestE.

(** A naive datetime: proleptic Gregorian ordinal (datetime.toordinal) and microseconds
    since midnight.  year/month/day are functions of the ordinal and not modelled. *)
Record datetime := mkDT { dt_ord : Z; dt_us : Z }.
Definition day_us : Z := 86400000000.
Definition dt_valid (d : datetime) : Prop := (1 <= dt_ord d <= 3652059 /\ 0 <= dt_us d < day_us)%Z.
Definition total_us (d : datetime) : Z := (dt_ord d * day_us + dt_us d)%Z.

(** Lib/datetime.py _ymd2ord (used for the two literal epochs only) *)
Definition is_leap (y : Z) : bool := ((y mod 4 =? 0) && (negb (y mod 100 =? 0) || (y mod 400 =? 0)))%Z.
Definition days_before_year (y : Z) : Z := let y := (y - 1)%Z in (y * 365 + y / 4 - y / 100 + y / 400)%Z.
Definition days_before_month (y m : Z) : Z :=
  (nth (Z.to_nat m) (0 :: 0 :: 31 :: 59 :: 90 :: 120 :: 151 :: 181 :: 212 :: 243 :: 273 :: 304 :: 334 :: nil) 0
   + if (m >? 2) && is_leap y then 1 else 0)%Z.
Definition ymd2ord (y m d : Z) : Z := (days_before_year y + days_before_month y m + d)%Z.
Definition j2000 : datetime := mkDT (ymd2ord 2000 1 1) (12 * 3600 * 1000000).
Definition mjd0 : datetime := mkDT (ymd2ord 1858 11 17) 0.

(** date - epoch as a normalised timedelta: (days, seconds); its microseconds are not used *)
Definition td_days (d : datetime) : Z := ((total_us d - total_us j2000) / day_us)%Z.
Definition td_seconds (d : datetime) : Z := (((total_us d - total_us j2000) mod day_us) / 1000000)%Z.

(** utils.py:422-424 *)
Definition date2jd (rnd : R -> R) (d : datetime) : R :=
  rnd (rnd (2451545 + IZR (td_days d)) + rnd (IZR (td_seconds d) / 86400)).

(** timedelta(days=x) in microseconds, CPython Modules/_datetimemodule.c accum():
    whole days exactly, the fraction times 86400e6 in floating point, rounded half-even *)
Definition timedelta_days (rnd : R -> R) (x : R) : Z :=
  let ip := Ztrunc x in
  (ip * day_us + ZnearestE (rnd (IZR day_us * (x - IZR ip))%R))%Z.

(** utils.py:437-441.  datetime arithmetic outside years 1..9999 raises OverflowError. *)
Definition jd2date (rnd : R -> R) (jd : R) : res datetime :=
  let mjd := rnd (jd - 4800001 / 2) in
  let t := (total_us mjd0 + timedelta_days rnd mjd)%Z in
  let o := (t / day_us)%Z in
  if ((1 <=? o) && (o <=? 3652059))%Z then Ok (mkDT o (t mod day_us)%Z) else Err OverflowError.
