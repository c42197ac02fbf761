(** What the theorems on decorrelation (C63) are stated with.  Nothing here refers to the
    definitions of Likelihood.v. *)
From Coq Require Import Reals String List.
From Verif Require Import Params PyFloat LikeSpec.
Import ListNotations.
Open Scope R_scope.

(** [a] occurs in [b] *)
Definition occurs (a b : string) : Prop := exists p q, b = (p ++ a ++ q)%string.

Definition average (col : list R) : R := rsum col / INR (length col).
(** linear correction at point [i]: coefficients with their columns, columns less their average *)
Definition corr_at (cols : list (R * list R)) (i : nat) : R :=
  rsum (map (fun cx => fst cx * (nth i (snd cx) 0 - average (snd cx))) cols).
(** the data with the correction taken from the velocities *)
Definition corrected (cols : list (R * list R)) (data : list datum) : list datum :=
  map (fun pi => mkDatum (d_t (fst pi)) (d_y (fst pi) - corr_at cols (snd pi)) (d_err (fst pi))) (combine data (seq 0 (length data))).

(** name of the coefficient of variable [d] for the instrument suffix [sfx] *)
Definition coef_name (sfx d : string) : string := ("c1_" ++ d ++ sfx)%string.
(** names that keep the terms apart: no underscore, no repetition, and no variable occurs in the
    name of another one's coefficient *)
Definition apart (sfx : string) (vars : list string) : Prop :=
  NoDup vars /\ (sfx = "" \/ exists s, sfx = "_" ++ s)%string /\
  forall d, In d vars -> ~ occurs "_" d /\ forall d', In d' vars -> d' <> d -> ~ occurs d (coef_name sfx d').
