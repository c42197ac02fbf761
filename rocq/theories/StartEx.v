(** The start of a run: examples. *)
From Coq Require Import Reals String Ascii Arith Bool List Lia Lra.
From Verif Require Import Py PyFloat Params Likelihood LikeSpec LikeProofs Mcmc Start StartSpec StartProofs StartThms.
Import ListNotations.
Open Scope R_scope.

Definition xs_v : list row := [mkRow (Some 10) true (Some 0) false; mkRow (Some 0) false (Some 0) false; mkRow (Some 5) true (Some (1 / 2)) false; mkRow (Some 0) true (Some 0) false].
Definition xs_names : list string := ["per1"; "e1"; "k1"; "dvdt"]%string.
Lemma xs_free j k r : free xs_v xs_names j k r -> (j = 0%nat /\ k = "per1"%string /\ r = mkRow (Some 10) true (Some 0) false) \/ (j = 1%nat /\ k = "k1"%string /\ r = mkRow (Some 5) true (Some (1 / 2)) false) \/ (j = 2%nat /\ k = "dvdt"%string /\ r = mkRow (Some 0) true (Some 0) false).
Proof.
  intros (i & E & V & K & C). destruct i as [|[|[|[|i]]]]; cbn in E, K, C; try (injection E as <-; injection K as <-; cbn in V; try discriminate V; subst j; tauto). destruct i; discriminate E.
Qed.
Lemma xs_ok : cache_fresh None xs_v /\ named xs_v xs_names /\ (forall j k r, free xs_v xs_names j k r -> exists x s, r_val r = Some x /\ scale_of k r s) /\ n_free xs_v = 3%nat.
Proof.
  split; [now left|]. split; [|split; [|reflexivity]].
  - intros i r E _. destruct i as [|[|[|[|i]]]]; try (eexists; reflexivity). destruct i; discriminate E.
  - intros j k r F. apply xs_free in F as [(-> & -> & ->)|[(-> & -> & ->)|(-> & -> & ->)]].
    + exists 10. eexists. split; [reflexivity|]. right. split; [reflexivity|]. exists 10. split; [reflexivity|]. apply UPeriod; [now exists "1"%string|lra].
    + exists 5, (1 / 2). split; [reflexivity|]. left. split; [reflexivity|lra].
    + exists 0. eexists. split; [reflexivity|]. right. split; [reflexivity|]. exists 0. split; [reflexivity|]. apply UNull; [|reflexivity]. intros p I [r B]. cbn in I. intuition subst; discriminate.
Qed.
Lemma xs_stuck : exists v names, cache_fresh None v /\ named v names /\ free v names 0 "per1" (mkRow (Some 1) true (Some 0) false) /\ stuck "per1" (mkRow (Some 1) true (Some 0) false).
Proof.
  exists [mkRow (Some 1) true (Some 0) false], ["per1"%string]. split; [now left|]. split; [|split].
  - intros [|[|i]] r E _; try discriminate E. now exists "per1"%string.
  - exists 0%nat. auto.
  - split; [reflexivity|]. exists 1. split; [reflexivity|]. left. split; [now exists "1"%string|now right].
Qed.
