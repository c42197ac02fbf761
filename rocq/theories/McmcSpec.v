(** Reference notions for the MCMC driver. *)
From Coq Require Import Reals Arith ZArith Bool List.
From Verif Require Import Py PyFloat Mcmc.
Import ListNotations.
Open Scope R_scope.

(** the state after [r] rounds of a run that starts in [m0], with the outcomes of the
    convergence tests computed so far, newest first *)
Section S.
Variable tr : nat -> nat -> ens -> sample * list nat.
Variable acor : list (list sample) -> list ext.
Variable g : mcfg.

(** is the test of this round skipped, mcmc.py:143 *)
Definition skipped (m : mstate) : bool :=
  let done := (m_nburn m + nw_of g * fold_right (fun s n => (length (sp_chain s) + n)%nat) 0%nat (m_samplers m))%nat in
  let last_len := match rev (m_samplers m) with s :: _ => length (sp_chain s) | [] => 0%nat end in
  rltb (INR done / totsteps g * 100) (g_minpercent g) && rleb (INR (nw_of g * last_len)) (g_minsteps g * INR (nw_of g)).

Inductive after (m0 : mstate) : nat -> list bool -> mstate -> Prop :=
| after_0 : after m0 0 [] m0
| after_skip r h m m1 m2 : after m0 r h m -> sample_round tr g m = Ok m1 -> skipped m1 = true ->
    one_round tr acor g m = Ok m2 -> after m0 (S r) h m2
| after_test r h m m1 m2 s : after m0 r h m -> sample_round tr g m = Ok m1 -> skipped m1 = false ->
    convergence_calculate acor (g_th g) (nw_of g) (g_ndim g) (map sp_chain (m_samplers m1)) (m_oac m1) = Ok s ->
    one_round tr acor g m = Ok m2 -> after m0 (S r) (st_mixed s :: h) m2.

(** [n] consecutive transitions of ensemble [e] from positions [p] *)
Fixpoint path (e n c : nat) (p : ens) : list sample :=
  match n with
  | O => []
  | S n' => let x := fst (tr e c p) in x :: path e n' (S c) (s_pos x)
  end.
(** where a path ends *)
Definition end_of (p : ens) (l : list sample) : ens := match rev l with x :: _ => s_pos x | [] => p end.

(** what [k] rounds store: in every round one transition from the current position
    [p], then [ci - 1] transitions again starting from [p] *)
Fixpoint stored (e ci k c : nat) (p : ens) : list sample :=
  match k with
  | O => []
  | S k' => fst (tr e c p) :: path e (ci - 1) (S c) p ++ stored e ci k' (c + ci) (end_of p (path e (ci - 1) (S c) p))
  end.
(** position after [k] rounds *)
Fixpoint pos_after (e ci k c : nat) (p : ens) : ens :=
  match k with
  | O => p
  | S k' => pos_after e ci k' (c + ci) (end_of p (path e (ci - 1) (S c) p))
  end.
End S.
