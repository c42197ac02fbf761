(** How far from the fit walkers are to start, by the kind of a parameter. *)
From Coq Require Import Reals String Ascii Arith Bool List.
From Verif Require Import Py Params.
Import ListNotations.
Open Scope R_scope.

Definition begins (p k : string) : Prop := exists r, k = (p ++ r)%string.
(** the scale of a parameter that has none: a hundred-thousandth of the logarithm for periods, a tenth of a day for times, one
    for offsets, a tenth of jitters and at least 0.1, and a tenth of anything else *)
Inductive usual (k : string) (x : R) : R -> Prop :=
| UPeriod : begins "per" k -> 0 < x -> usual k x (x * Rabs (ln x / ln 10) / 100000)
| ULogPeriod : begins "logper" k -> usual k x (Rabs x / 100000)
| UTime : begins "tc" k \/ begins "tp" k -> usual k x (1 / 10)
| UOffset : begins "gamma" k -> usual k x 1
| UJitter : begins "jit" k -> usual k x (Rmax (Rabs x / 10) (1 / 10))
| UOther : (forall p, In p ["per"; "logper"; "tc"; "tp"; "gamma"; "jit"]%string -> ~ begins p k) -> x <> 0 -> usual k x (Rabs x / 10)
| UNull : (forall p, In p ["per"; "logper"; "tc"; "tp"; "gamma"; "jit"]%string -> ~ begins p k) -> x = 0 -> usual k x (1 / 100000).
(** the scale of a row: that given, or else the usual one *)
Definition scale_of (k : string) (r : row) (s : R) : Prop := (r_scale r = Some s /\ s <> 0) \/ (r_scale r = Some 0 /\ exists x, r_val r = Some x /\ usual k x s).
(** the parameters that vary, numbered in the order of the rows *)
Definition free (v : list row) (names : list string) (j : nat) (k : string) (r : row) : Prop :=
  exists i, nth_error v i = Some r /\ r_vary r = true /\ nth_error names i = Some k /\ length (filter r_vary (firstn i v)) = j.
(** rows that differ in their scales only *)
Definition same_but_scale (r r' : row) : Prop := r_val r = r_val r' /\ r_vary r = r_vary r' /\ r_lin r = r_lin r'.
(** periods around which walkers cannot be spread *)
Definition stuck (k : string) (r : row) : Prop :=
  r_scale r = Some 0 /\ exists x, r_val r = Some x /\ (begins "per" k /\ (x <= 0 \/ x = 1) \/ begins "logper" k /\ x = 0).
