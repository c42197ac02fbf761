(** C85: the start of an MCMC run.  One full statement is that every walker of every ensemble starts at a point of its own, each
    parameter that varies within its scale of the value of the fit and in its domain, that the scale is the one given or the
    usual one for the parameter and its value, and that nothing else changes.  Walkers are not spread around a period of one
    day, the scale of a first run is kept for the next whatever the value, and eccentricities start beyond one. *)
From Coq Require Import Reals String Ascii Arith Bool List.
From Verif Require Import Py Params Likelihood LikeSpec LikeProofs Mcmc Start StartSpec StartProofs StartThms StartEx.
Import ListNotations.
Open Scope R_scope.

Theorem C85_starts : forall v cache names nw ne u, cache_fresh cache v -> named v names -> (forall j k r, free v names j k r -> exists x s, r_val r = Some x /\ scale_of k r s) ->
  exists v' c P, start (v, cache) names nw ne u = ((v', c), Ok P) /\ length P = ne /\
  (forall e l, nth_error P e = Some l -> length l = Nat.max nw (2 * n_free v) /\ forall w p, nth_error l w = Some p -> length p = n_free v /\
     forall j k r x s, free v names j k r -> r_val r = Some x -> scale_of k r s -> nth_error p j = Some (Some (x + u e w j * s))) /\
  length v' = length v /\ forall i r, nth_error v i = Some r -> exists r', nth_error v' i = Some r' /\ same_but_scale r r' /\ (r_vary r = false -> r' = r) /\
    (forall k s, r_vary r = true -> nth_error names i = Some k -> scale_of k r s -> r_scale r' = Some s).
Proof. exact starts. Qed.
Print Assumptions C85_starts.

Example C85_starts_ex : cache_fresh None xs_v /\ named xs_v xs_names /\ (forall j k r, free xs_v xs_names j k r -> exists x s, r_val r = Some x /\ scale_of k r s) /\ n_free xs_v = 3%nat.
Proof. exact xs_ok. Qed.

(** every parameter has a usual scale, positive but for periods of one day *)
Theorem C85_usual : forall k x, ~ begins "per" k \/ 0 < x -> exists s, usual k x s /\ 0 <= s /\ (s = 0 -> begins "per" k /\ x = 1 \/ begins "logper" k /\ x = 0).
Proof. exact usual_ok. Qed.
Print Assumptions C85_usual.

Theorem C85_near : forall v cache names nw ne u st P e l w p j k r x s, cache_fresh cache v -> named v names -> (forall j k r, free v names j k r -> exists x s, r_val r = Some x /\ scale_of k r s) ->
  start (v, cache) names nw ne u = (st, Ok P) -> nth_error P e = Some l -> nth_error l w = Some p -> free v names j k r -> r_val r = Some x -> scale_of k r s ->
  0 <= u e w j < 1 -> 0 <= s -> exists y, nth_error p j = Some (Some y) /\ x <= y <= x + s /\ (0 < s -> y < x + s).
Proof. exact near. Qed.
Print Assumptions C85_near.

(** emcee takes the start exactly if no scale is zero, the draws for each parameter differ and its condition number is not large *)
Theorem C85_spread : forall v cache names nw ne u st P e l cond, cache_fresh cache v -> named v names -> (forall j k r, free v names j k r -> exists x s, r_val r = Some x /\ scale_of k r s) ->
  start (v, cache) names nw ne u = (st, Ok P) -> nth_error P e = Some l ->
  first_sample cond l = Ok tt <->
  (forall j k r s, free v names j k r -> scale_of k r s -> s <> 0) /\
  (forall j, (j < n_free v)%nat -> exists w w', (w < length l)%nat /\ (w' < length l)%nat /\ u e w j <> u e w' j) /\ cond l = true.
Proof. exact spread. Qed.
Print Assumptions C85_spread.

(** A period of one day, or below zero, raises ValueError whatever the draws. *)
Theorem C85_period_refuted : forall v cache names nw ne u j k r, cache_fresh cache v -> named v names -> free v names j k r -> stuck k r ->
  exists st P, start (v, cache) names nw ne u = (st, Ok P) /\ length P = ne /\ forall cond l, In l P -> first_sample cond l = Err ValueError.
Proof. exact not_spread. Qed.
Print Assumptions C85_period_refuted.

Example C85_period_ex : exists v names, cache_fresh None v /\ named v names /\ free v names 0 "per1" (mkRow (Some 1) true (Some 0) false) /\ stuck "per1" (mkRow (Some 1) true (Some 0) false).
Proof. exact xs_stuck. Qed.

(** a second run from the same values starts as the first would *)
Theorem C85_again : forall v cache names nw ne u st P, cache_fresh cache v -> named v names -> start (v, cache) names nw ne u = (st, Ok P) -> forall nw' ne' u', exists P',
  start st names nw' ne' u' = (st, Ok P') /\ snd (start (v, cache) names nw' ne' u') = Ok P'.
Proof. exact again. Qed.
Print Assumptions C85_again.

(** A value changed after a run keeps the scale of the value before. *)
Theorem C85_stale_refuted : forall x y nw u, x <> 0 -> exists st, fst (start ([mkRow (Some x) true (Some 0) false], None) ["k1"%string] nw 1 u) = st /\
  snd (start (setval (fst st) 0 (Some y), snd st) ["k1"%string] nw 1 u) = Ok [map (fun w => [Some (y + u 0%nat w 0%nat * (Rabs x / 10))]) (seq 0 (Nat.max nw 2))].
Proof. exact stale. Qed.
Print Assumptions C85_stale_refuted.

(** An eccentricity of 0.95 starts beyond one for a draw of 0.9. *)
Theorem C85_domain_refuted : forall u nw, u 0%nat 0%nat 0%nat = 9 / 10 -> exists st l p y,
  start ([mkRow (Some (19 / 20)) true (Some 0) false], None) ["e1"%string] nw 1 u = (st, Ok [l]) /\ In p l /\ nth_error p 0 = Some (Some y) /\ 1 < y.
Proof. exact beyond. Qed.
Print Assumptions C85_domain_refuted.
