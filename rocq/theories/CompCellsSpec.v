(** Vocabulary for C96: what LaTeX sees of a row. *)
From Coq Require Import String Ascii Arith List.
From Verif Require Import Py PyFloat PriorTextSpec CompCells.
Import ListNotations.
Open Scope string_scope.

(** a row of these columns, set apart by & *)
Definition columns (s : string) (cols : list string) : Prop := s = String.concat "&" cols /\ Forall (free "&") cols.
(** what should be read of a value; the offsets are listed after the free parameters *)
Definition reads (show_int : nat -> string) (two_digits : ext -> string) (v : value) (t : string) : Prop :=
  match v with
  | VInt n => t = show_int n
  | VFloat x => t = two_digits x
  | VText s => t = s
  | VList l => t = String.concat ", " (l ++ ["{$\gamma$}"])%list
  | VOther => False
  end.
(** nothing in the table's texts is an & of its own *)
Definition plain_value (v : value) : Prop :=
  match v with VText s => free "&" s | VList l => Forall (free "&") l | VInt _ | VFloat _ => True | VOther => False end.
Definition plain_entries (d : entries) : Prop := Forall (fun kv => free "&" (fst kv) /\ plain_value (snd kv)) d.
Definition pad (t : string) : string := " " ++ t ++ " ".
Definition padl (t : string) : string := " " ++ t.
Definition padr (t : string) : string := t ++ " ".
