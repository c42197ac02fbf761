(** What the theorems on the text in a panel (C80) are stated with. *)
From Coq Require Import ZArith Reals String Ascii Arith Bool List.
From Verif Require Import Py PyFloat Params Format FormatProofs Stats PostProc DerivTab Anno.
Import ListNotations.
Open Scope R_scope.
Open Scope string_scope.

(** [m] and [e'] stand for [v] and its error [e]: the value is rounded to the decimals of the error, which is kept; or
    both are given as whole numbers *)
Definition stands_for (dexp : R -> Z) (v e m e' : R) : Prop :=
  e' = e /\ Rabs (m - v) <= / 2 * p10 (- Z.abs (dexp e)) \/
  (exists z, m = IZR z) /\ (exists z, e' = IZR z) /\ Rabs (m - v) <= / 2 /\ Rabs (e' - e) < 1 + Rabs e / 20.
(** a text without its dollar signs *)
Definition bare (s : string) : string := string_of_list_ascii (filter (fun c => negb (Ascii.eqb c "$")) (list_ascii_of_string s)).
(** a line with [label] and [unit] for the value [v] with error [e] *)
Definition line_for (f2 str : R -> string) (dexp : R -> Z) (label unit : string) (v e : R) (line : string) : Prop :=
  (1 / 10 ^ 15 < e -> exists m e', stands_for dexp v e m e' /\
     line = "$\mathregular{" ++ bare label ++ "}$ = " ++ str m ++ " $\mathregular{\pm}$ " ++ str e' ++ " " ++ unit) /\
  (e <= 1 / 10 ^ 15 -> line = "$\mathregular{" ++ bare label ++ "}$ = " ++ f2 v ++ " " ++ unit).
(** unit of an element *)
Definition element_unit (p u : string) : Prop :=
  p = "per" /\ u = "days" \/ p = "k" /\ u = "m s$^{\mathregular{-1}}$" \/ p = "e" /\ u = "".
(** half of the 68 per cent interval of samples, to two digits *)
Definition spread (col : list R) : R := round_sig ((quantile (841 / 1000) col - quantile (159 / 1000) col) / 2) 2.
(** where sigfig gives whole numbers, the error is one *)
Definition wholes (dexp : R -> Z) (ends0 : R -> bool) : Prop :=
  forall e, dexp e = 0%Z \/ dexp e = (-1)%Z /\ ends0 e = true -> exists z, e = IZR z.
