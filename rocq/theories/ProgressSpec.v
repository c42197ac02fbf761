(** Specification for what is shown while sampling (C88). *)
From Coq Require Import Reals String Ascii ZArith Bool List.
From Verif Require Import Py PyFloat Params Mcmc McmcSpec Progress.
Import ListNotations.
Open Scope string_scope.

(** a bar of [w] places of which [k] are filled *)
Definition bar_of (k w : nat) (s : string) : Prop :=
  list_ascii_of_string s = ("["%char :: repeat "="%char k ++ repeat " "%char (w - k) ++ ["]"%char])%list.
(** a number of one decimal next to [x] *)
Definition shows (s : string) (x : R) : Prop :=
  exists n d, (0 <= n)%Z /\ (0 <= d < 10)%Z /\ s = dec n ++ "." ++ dec d /\ (Rabs (IZR (10 * n + d) / 10 - x) <= 1 / 20)%R.
(** one transition of every walker, each taken or not *)
Definition counts (nw : nat) (tr : nat -> nat -> ens -> sample * list nat) : Prop :=
  forall e c p, length (snd (tr e c p)) = nw /\ Forall (fun a => (a <= 1)%nat) (snd (tr e c p)).
(** proposals accepted by all walkers of all ensembles since the last reset, and made by one walker *)
Definition all_accepted (l : list sampler) : nat := fold_right (fun s n => (fold_right plus 0 (sp_acc s) + n)%nat) 0%nat l.
Definition discards (l : list event) : list event := filter (fun e => match e with Printed _ => true | Shown _ => false end) l.
