(** Model of the number formats '{:.2f}', '{:.5f}' and '{:7.3f}', and of the rows and notes of TexTable.tab_rv,
    radvel/report.py:301-340, and of TexTable.tab_crit, report.py:382-408.  Titles and templates are not modelled.

    Numbers are formatted exactly (nearest decimal, halves to even); a zero is shown without sign. *)
From Coq Require Import ZArith Reals String Ascii Arith Bool DecimalString List.
From Flocq Require Import Core.
From Verif Require Import Py PyFloat Params Likelihood ParTable TexLabels.
Import ListNotations.
Open Scope R_scope.
Open Scope string_scope.

(** str(n) *)
Definition str_N (n : N) : string := NilEmpty.string_of_uint (N.to_uint n).
Definition str_Z (z : Z) : string := (if (z <? 0)%Z then "-" else "") ++ str_N (Z.abs_N z).
(** the last [k] digits of [n], with leading zeros *)
Fixpoint low_digits (k : nat) (n : N) : string :=
  match k with
  | O => ""
  | S k' => low_digits k' (n / 10) ++ String (ascii_of_N (48 + n mod 10)) ""
  end.
(** '{:.df}'.format(x) for d > 0 *)
Definition fixed (d : nat) (x : R) : string :=
  let n := Z.to_N (ZnearestE (Rabs x * 10 ^ d)) in
  (if rltb x 0 then "-" else "") ++ str_N (n / 10 ^ N.of_nat d) ++ "." ++ low_digits d n.
Definition fixed_ext (d : nat) (x : ext) : string :=
  match x with Fin r => fixed d r | PInf => "inf" | NInf => "-inf" | NaN => "nan" end.
(** the width in '{:7.3f}': blanks on the left *)
Fixpoint blanks (n : nat) : string := match n with O => "" | S m => String " " (blanks m) end.
Definition to_width (w : nat) (s : string) : string := blanks (w - String.length s) ++ s.

(** l[i] *)
Definition at_idx {A} (l : list A) (i : nat) : res A := match nth_error l i with Some a => Ok a | None => Err IndexError end.
(** range(n)[:m] *)
Definition range_to (n : nat) (m : Z) : list nat :=
  firstn (if (m <? 0)%Z then Z.to_nat (Z.of_nat n + m) else Z.to_nat m) (seq 0 n).

(** report.py:326-329 *)
Definition inst_label (inst : string) : string :=
  if substr_in "_" inst then replace_by "_" "$_{\rm " inst ++ "}$" else inst.
(** report.py:322-331 *)
Definition rv_row (x y yerr : list R) (telvec : list string) (i : nat) : res string :=
  do t <- at_idx x i;
  do v <- at_idx y i;
  do e <- at_idx yerr i;
  do inst <- at_idx telvec i;
  Ok (fixed 5 t ++ " & " ++ fixed 2 v ++ " & " ++ fixed 2 e ++ " & " ++ inst_label inst).
(** report.py:318-319 *)
Definition rv_note (m : Z) (n : nat) : string :=
  "Only the first " ++ str_Z m ++ " of " ++ str_N (N.of_nat n) ++ " RVs are displayed in this table. \
Use \texttt{radvel table -t rv} to save the full \LaTeX\ table as a separate file.".
(** tab_rv: rows and notes, report.py:309-331; int(np.round(max_lines)) *)
Definition tab_rv (max_lines : option R) (x y yerr : list R) (telvec : list string) : res (list string * string) :=
  let nvels := length x in
  let '(iters, notes) := match max_lines with
                         | None => (seq 0 nvels, "")
                         | Some m => (range_to nvels (ZnearestE m), rv_note (ZnearestE m) nvels)
                         end in
  do rows <- map_res (rv_row x y yerr telvec) iters;
  Ok (rows, notes).

(** tab_crit: rows, report.py:389-395 *)
Definition tab_crit (minafactor maxarchange maxgr mintz : option ext) : list string :=
  map (fun '(name, val) => name ++ " & " ++ match val with Some v => "$" ++ to_width 7 (fixed_ext 3 v) ++ "$" | None => "None" end)
    (combine ["minAfactor"; "maxArchange"; "maxGR"; "minTz"] [minafactor; maxarchange; maxgr; mintz]).
