(** What the theorems on the text of a fit (C83) are stated with. *)
From Coq Require Import Reals String Ascii Arith Bool List.
From Verif Require Import Py Params.
Import ListNotations.
Open Scope string_scope.

(** the lines of a text *)
Fixpoint lines (s : string) : list string :=
  match s with
  | "" => [""]
  | String c r => if Ascii.eqb c "010" then "" :: lines r else match lines r with [] => [String c ""] | l :: ls => String c l :: ls end
  end.
(** a name or number as one word *)
Definition word (s : string) : Prop := s <> "" /\ ~ In " "%char (list_ascii_of_string s) /\ ~ In "010"%char (list_ascii_of_string s).
(** what a line shows: name, value, uncertainty, flag *)
Record shown := mkShown { sh_name : string; sh_value : option R; sh_err : option (option R); sh_flag : list string }.
Definition fields (g : option R -> string) (e : shown) : list string :=
  ([sh_name e; g (sh_value e)] ++ (match sh_err e with Some x => [g x] | None => [] end) ++ sh_flag e)%list.
Definition head (u : option (dict (option R))) : list string := match u with None => ["parameter"; "value"; "vary"] | Some _ => ["parameter"; "value"; "+/-"; "vary"] end.
(** a time, and a value as it is shown *)
Definition time_name (k : string) : Prop := exists r, k = "tc" ++ r \/ k = "tp" ++ r.
Definition displayed (time_base : R) (k : string) (x y : option R) : Prop :=
  match x with
  | None => y = None
  | Some v => (time_name k /\ (v > 1000000)%R -> y = Some (v - time_base)%R) /\ (~ (time_name k /\ (v > 1000000)%R) -> y = Some v)
  end.
(** the uncertainty of a parameter: zero if there is none *)
Definition uncertainty (u : option (dict (option R))) (k : string) (e : option (option R)) : Prop :=
  match u with None => e = None | Some u => e = Some (match dget u k with Some x => x | None => Some 0%R end) end.
Definition flag (v : varyv) : list string := match v with VBool true => ["True"] | VBool false => ["False"] | VEmpty => [] end.
(** numbers that leave a blank in their columns *)
Definition fits (g : option R -> string) (u : option (dict (option R))) : Prop :=
  (forall x, word (g x) /\ (String.length (g x) <= 14)%nat) /\
  match u with None => True | Some u => forall k, (String.length (g (match dget u k with Some x => x | None => Some 0%R end)) <= 9)%nat end.
