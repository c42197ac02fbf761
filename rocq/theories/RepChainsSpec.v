(** What the theorems on the samples of a report (C74) are stated with. *)
From Coq Require Import Reals String Arith List.
From Verif Require Import Py Params ParamsSpec PostProc.
Import ListNotations.
Open Scope R_scope.

(** the elements that are printed for every planet *)
Definition PRINTED := ["per"; "tc"; "tp"; "e"; "w"; "k"]%string.
Definition printed_key (num : nat) (k : string) : Prop := exists p n, In p PRINTED /\ (1 <= n <= num)%nat /\ k = key p n.

(** the value of parameter [k] in sample [i]: that of the chain, or the best value if the chain
    has no such column (parameters that were held fixed) *)
Definition sample_value (chains : table) (h : heap) (ps : params) (i : nat) (k : string) (x : R) : Prop :=
  match dget (t_cols chains) k with Some col => x = nth i col 0 | None => value_at h ps k = Some x end.

(** a parameter set whose entries all have a value *)
Definition all_values (h : heap) (ps : params) : Prop := forall k, In k (dkeys (ps_items ps)) -> exists x, value_at h ps k = Some x.
(** the columns of a table have one entry per sample *)
Definition table_ok (t : table) : Prop := forall k col, dget (t_cols t) k = Some col -> length col = t_len t.
