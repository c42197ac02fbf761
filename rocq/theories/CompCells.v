(** Model of the cells, the head and the column definitions of the comparison table, radvel/report.py:466-478, 490-508.

    What the table is made of (order of models, messages, lines) is in CompTable.v, which takes the text of the cells.
    [show_int] is str() of an integer, [two_digits] is '%.2f'. *)
From Coq Require Import String Ascii Arith Bool List.
From Verif Require Import Py PyFloat.
Import ListNotations.
Open Scope string_scope.

(** the first component of an entry: an integer, a float, a text, the list of free parameters, or anything else *)
Inductive value := VInt (n : nat) | VFloat (x : ext) | VText (s : string) | VList (l : list string) | VOther.
Definition entries := list (string * value).

Section Cells.
  Variables (show_int : nat -> string) (two_digits : ext -> string).
  (** report.py:500-503 *)
  Fixpoint items (l : list string) : string := match l with [] => "" | x :: r => " " ++ x ++ "," ++ items r end.
  (** report.py:493-506 *)
  Definition cell (v : value) : res string :=
    match v with
    | VInt n => Ok (" & " ++ show_int n)
    | VFloat x => Ok (" & " ++ two_digits x)
    | VText s => Ok (" & " ++ s)
    | VList l => Ok (" &" ++ items l ++ " {$\gamma$}")
    | VOther => Err ValueError
    end.
  (** report.py:490-506: the row before the difference *)
  Fixpoint cells (d : entries) : res string :=
    match d with
    | [] => Ok ""
    | (_, v) :: r => do c <- cell v; do rest <- cells r; Ok (c ++ rest)
    end.
End Cells.
(** report.py:468-477 *)
Fixpoint head_cells (keys : list string) : string :=
  match keys with
  | [] => ""
  | s :: r => if String.eqb s "Free Params" then head_cells r else " & \colhead{" ++ s ++ "}" ++ head_cells r
  end.
Definition head (keys : list string) : string :=
  "\tablehead{" ++ "\colhead{AICc Qualitative Comparison}" ++ " & \colhead{Free Parameters}" ++ head_cells keys ++ " & \colhead{$\Delta$AICc}" ++ "}".
(** report.py:467: one letter for each column *)
Fixpoint times (n : nat) (s : string) : string := match n with 0 => "" | S m => s ++ times m s end.
Definition col_letters (keys : list string) : string := "l" ++ "l" ++ times (List.length keys - 1) "r" ++ "r".
Definition coldefs (keys : list string) : string := "\begin{deluxetable*}{" ++ col_letters keys ++ "}".
