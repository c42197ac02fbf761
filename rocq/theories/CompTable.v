(** Model of TexTable.tab_comparison, radvel/report.py:448-524.

    A row of statistics has its AICc value and the text of its cells (report.py:491-507;
    an entry of another type raises ValueError). The entries under 'AICc' are pairs of
    the value and a description, which model_comp gives the same text for all rows, so
    that sorting compares the values. The template and the table head are not modelled:
    the result is the list [rows] handed to the template, or [None] for the empty text. *)
From Coq Require Import Reals String Arith Bool List.
From Verif Require Import Py PyFloat.
Import ListNotations.
Open Scope string_scope.

Record stats := mkStats { s_aicc : ext; s_cells : res string }.

(** sorted(statsdict, key=itemgetter('AICc')): a stable sort *)
Fixpoint insert (x : stats) (l : list stats) : list stats :=
  match l with
  | [] => [x]
  | y :: r => if ext_ltb (s_aicc y) (s_aicc x) then y :: insert x r else x :: l
  end.
Definition sort (l : list stats) : list stats := fold_right insert [] l.

(** report.py:479-481 *)
Definition levels : list R := [0; 2; 4; 10]%R.
Definition messages : list string := ["Nearly Indistinguishable"; "Somewhat Disfavored"; "Strongly Disfavored"; "Ruled Out"].
(** report.py:510-513: steps of deltaAICtrigger at levels still ahead *)
Fixpoint climb (delta : ext) (ahead : list R) : nat :=
  match ahead with
  | [] => 0%nat
  | l :: r => if ext_ltb (Fin l) delta then S (climb delta r) else 0%nat
  end.

Section Table.
  (** "%.2f" *)
  Variable two_digits : ext -> string.

  (** report.py:487-519 *)
  Fixpoint table_rows (low : ext) (l : list stats) (i trigger : nat) : res (list string) :=
    match l with
    | [] => Ok []
    | s :: r =>
        do cells <- s_cells s;
        let delta := ext_sub (s_aicc s) low in
        let row := cells ++ " & " ++ two_digits delta in
        let row := if Nat.eqb i 0%nat then "AICc Favored Model" ++ row else row in
        let up := climb delta (skipn trigger levels) in
        let row := match up with 0%nat => row | S _ => nth (trigger + up - 1)%nat messages "" ++ row end in
        let line := match up with 0%nat => Nat.eqb i 1%nat | S _ => true end in
        do rest <- table_rows low r (S i) (trigger + up)%nat;
        Ok ((if line then ["\hline"] else []) ++ row :: rest)%list
    end.

  Definition tab_comparison (statsdict : option (list stats)) : res (option (list string)) :=
    match statsdict with
    | None => Ok None
    | Some l =>
        match sort l with
        | [] => Ok None
        | s :: r =>
            let n_test := if Nat.ltb 50%nat (length l) then 50%nat else length l in
            do rows <- table_rows (s_aicc s) (firstn n_test (s :: r)) 0%nat 0%nat; Ok (Some rows)
        end
    end.
End Table.
