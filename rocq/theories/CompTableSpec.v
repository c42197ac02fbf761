(** Spec for C52: the labels of the model comparison table. *)
From Coq Require Import Reals String Arith Bool List.
From Verif Require Import Py PyFloat CompTable.
Import ListNotations.
Open Scope string_scope.
Open Scope nat_scope.

(** Burnham & Anderson 2004 *)
Definition label_of (delta : ext) : string :=
  if ext_ltb (Fin 10) delta then "Ruled Out"
  else if ext_ltb (Fin 4) delta then "Strongly Disfavored"
  else if ext_ltb (Fin 2) delta then "Somewhat Disfavored"
  else if ext_ltb (Fin 0) delta then "Nearly Indistinguishable"
  else "AICc Favored Model".

Definition is_nan (x : ext) : Prop := x = NaN.
Definition below (a b : stats) : Prop := ext_ltb (s_aicc b) (s_aicc a) = false.
Definition no_stats : stats := mkStats NaN (Err ValueError).
Definition model (ms : list stats) (i : nat) : stats := nth i ms no_stats.
Definition delta (ms : list stats) (i : nat) : ext := ext_sub (s_aicc (model ms i)) (s_aicc (model ms 0)).
(** the group a model belongs to *)
Definition group (ms : list stats) (i : nat) : string := label_of (delta ms i).
(** it is written at the first model of the group *)
Definition label (ms : list stats) (i : nat) : string :=
  if Nat.eqb i 0 || negb (String.eqb (group ms i) (group ms (i - 1))) then group ms i else "".
Definition rule (ms : list stats) (i : nat) : bool := negb (Nat.eqb i 0) && (Nat.eqb i 1 || negb (String.eqb (label ms i) "")).
Definition cells (s : stats) : string := match s_cells s with Ok c => c | Err _ => "" end.
Definition spec_row (two_digits : ext -> string) (ms : list stats) (i : nat) : list string :=
  ((if rule ms i then ["\hline"] else []) ++ [(label ms i ++ cells (model ms i) ++ " & " ++ two_digits (delta ms i))%string])%list.
Definition shown (l : list stats) : nat := Nat.min 50 (length l).
