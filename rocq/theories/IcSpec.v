(** Spec for C62: which models `radvel ic` reports. *)
From Coq Require Import Reals String Arith Bool Sorted List.
From Verif Require Import Py Params ModelComp ModelCompSpec IcCompare.
Import ListNotations.
Open Scope string_scope.

(** [r] keeps of [l] the first element of each class, in order *)
Definition firsts {A} (same : A -> A -> Prop) (l r : list A) : Prop :=
  exists ix, StronglySorted lt ix /\ Forall2 (fun i x => nth_error l i = Some x) ix r /\
    forall i, In i ix <-> exists x, nth_error l i = Some x /\ forall j y, (j < i)%nat -> nth_error l j = Some y -> ~ same y x.

(** parameters that have a label of their own: semi-amplitudes, the first eccentricity
    parameter, trend terms, amplitudes of a Gaussian process *)
Definition labelled (kp ep name : string) : Prop :=
  String.prefix kp name = true \/ String.prefix ep name = true \/ name = "dvdt" \/ name = "curv" \/ String.prefix "gp_amp" name = true.
Definition jitter_free (env : menv) (s : pst) : Prop :=
  exists k, In k (e_names env) /\ String.prefix "jit" k = true /\ free_key env s k.
(** the same of these are free, and some jitter term is free in both or in none *)
Definition same_free (env : menv) (kp ep : string) (s1 s2 : pst) : Prop :=
  (forall k, In k (e_names env) -> labelled kp ep k -> (free_key env s1 k <-> free_key env s2 k)) /\
  (jitter_free env s1 <-> jitter_free env s2).

(** parameter names as radvel makes them; [L]: the letters of the planets *)
Record names_ok (env : menv) (letter : string -> res string) (kp ep : string) (L : nat -> string) (n : nat) : Prop := {
  no_basis : exists eps cps, get_eparams (e_basis env) = Ok (ep :: eps) /\ get_circparams (e_basis env) = Ok (cps ++ [kp])%list;
  no_idx : forall k, In k (e_names env) -> exists i, dget (e_idx env) k = Some i /\ (i < n)%nat;
  no_k : forall k, In k (e_names env) -> String.prefix kp k = true -> exists m, k = key kp m /\ (1 <= m <= e_num env)%nat;
  no_e : forall k, In k (e_names env) -> String.prefix ep k = true -> exists m, k = key ep m /\ (1 <= m <= e_num env)%nat;
  no_letter : forall m, (1 <= m <= e_num env)%nat -> letter (str_nat m) = Ok (L m);
  no_inj : forall m m', (1 <= m <= e_num env)%nat -> (1 <= m' <= e_num env)%nat -> L m = L m' -> m = m';
  no_gp : forall k k', In k (e_names env) -> In k' (e_names env) -> String.prefix "gp_amp" k = true -> String.prefix "gp_amp" k' = true ->
    no_underscore (sdrop 6 k) = no_underscore (sdrop 6 k') -> k = k';
  no_nodup : NoDup (e_names env) }.

(** the comparisons that the help text of `radvel ic` (cli.py 172-175) names: number of planets,
    eccentricities, trends, jitter terms, Gaussian process *)
Definition COMPARISONS : list string := ["nplanets"; "e"; "trend"; "jit"; "gp"].

(** the models of the comparisons [ts], one after the other *)
Inductive runs {X} (env : menv) (fit : pst -> pst * res (fitted X)) : list string -> pst -> list (fitted X) -> Prop :=
| runs_nil p : runs env fit [] p []
| runs_cons t ts p p1 E Es : model_comp (fitted X) env fit [t] p [] = (p1, E, Ok tt) -> runs env fit ts p1 Es ->
    runs env fit (t :: ts) p (E ++ Es).
