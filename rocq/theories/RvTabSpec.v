(** What the theorems on the tables of velocities and criteria (C72) are stated with. *)
From Coq Require Import ZArith Reals String Ascii Arith Bool List.
From Verif Require Import Py PyFloat DecorrSpec.
Import ListNotations.
Open Scope R_scope.
Open Scope string_scope.

(** ** reading a decimal number *)
Definition digit (c : ascii) : option Z :=
  let n := Z.of_nat (nat_of_ascii c) in if (48 <=? n)%Z && (n <=? 57)%Z then Some (n - 48)%Z else None.
Fixpoint digits (s : string) (acc : Z) : option Z :=
  match s with
  | "" => Some acc
  | String c r => match digit c with Some d => digits r (10 * acc + d)%Z | None => None end
  end.
(** split at the first point *)
Fixpoint at_point (s : string) : option (string * string) :=
  match s with
  | "" => None
  | String c r => if Ascii.eqb c "." then Some ("", r) else match at_point r with Some (a, b) => Some (String c a, b) | None => None end
  end.
(** a number with [d] decimals, without sign *)
Definition unsigned (d : nat) (s : string) : option R :=
  match at_point s with
  | Some (a, b) =>
      if String.eqb a "" || negb (Nat.eqb (String.length b) d) then None
      else match digits a 0, digits b 0 with Some i, Some f => Some (IZR i + IZR f / 10 ^ d) | _, _ => None end
  | None => None
  end.
Definition reading (d : nat) (s : string) : option R :=
  match s with
  | String c r => if Ascii.eqb c "-" then match unsigned d r with Some v => Some (- v) | None => None end else unsigned d s
  | "" => None
  end.
(** [s] shows [x] to [d] decimals *)
Definition shows (d : nat) (s : string) (x : R) : Prop := exists v, reading d s = Some v /\ Rabs (v - x) <= / 2 / 10 ^ d.

(** ** velocities *)
Record obs := mkObs { o_t : R; o_v : R; o_e : R; o_inst : string }.
(** the part of the name after an underscore is a subscript *)
Definition shown_inst (inst s : string) : Prop :=
  (~ occurs "_" inst -> s = inst) /\
  (forall a b, inst = a ++ "_" ++ b -> ~ occurs "_" a -> ~ occurs "_" b -> s = a ++ "$_{\rm " ++ b ++ "}$").
Definition row_of (row : string) (o : obs) : Prop :=
  exists t v e i, row = t ++ " & " ++ v ++ " & " ++ e ++ " & " ++ i /\
    shows 5 t (o_t o) /\ shows 2 v (o_v o) /\ shows 2 e (o_e o) /\ shown_inst (o_inst o) i.

(** the note below the table: how many of how many velocities it says are shown *)
Definition says (note : string) (shown all : nat) : Prop :=
  exists a b, note = "Only the first " ++ a ++ " of " ++ b ++ " RVs are displayed in this table. \
Use \texttt{radvel table -t rv} to save the full \LaTeX\ table as a separate file." /\
    digits a 0 = Some (Z.of_nat shown) /\ digits b 0 = Some (Z.of_nat all).

(** ** criteria *)
Definition only_blanks (s : string) : Prop := forall p c q, s = p ++ String c q -> c = " "%char.
Definition crit_row (name : string) (val : option ext) (row : string) : Prop :=
  match val with
  | None => row = name ++ " & None"
  | Some x => exists b s, row = name ++ " & $" ++ b ++ s ++ "$" /\ only_blanks b /\
      match x with Fin r => shows 3 s r | PInf => s = "inf" | NInf => s = "-inf" | NaN => s = "nan" end
  end.
