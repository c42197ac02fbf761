(** What the theorems on the descriptions of priors (C73) are stated with. *)
From Coq Require Import Reals String Ascii Arith Bool List.
From Verif Require Import Py Params DecorrSpec TexSpec.
Import ListNotations.
Open Scope string_scope.

(** symbol of a parameter in mathematics mode: of a planet, an instrument, or a trend *)
Definition symbol_of (s sym : string) : Prop :=
  (exists q n y l, s = key q n /\ (1 <= n <= 9)%nat /\ In (q, y) SYMBOLS /\ letter_of None n l /\ sym = y ++ "_{" ++ l ++ "}") \/
  (exists inst, plain_name inst /\ ~ occurs "$" inst /\
     (s = "gamma_" ++ inst /\ sym = "\gamma_{\rm " ++ inst ++ "}" \/ s = "jit_" ++ inst /\ sym = "\sigma_{\rm " ++ inst ++ "}")) \/
  (s = "dvdt" /\ sym = "\dot{\gamma}") \/ (s = "curv" /\ sym = "\ddot{\gamma}").

(** the description [row] names the parameter and both limits *)
Definition names_interval (row title lo sym hi : string) : Prop := row = title ++ "$" ++ lo ++ " < " ++ sym ++ " < " ++ hi ++ "$".

(** lines of a description, separated as in the table *)
Fixpoint lines (l : list string) : string :=
  match l with
  | [] => ""
  | [a] => a
  | a :: r => a ++ "\\\\" ++ String (ascii_of_nat 10) (lines r)
  end.
(** enumeration of names *)
Fixpoint enumeration (l : list string) : string :=
  match l with [] => "" | [a] => "and " ++ a | a :: r => a ++ ", " ++ enumeration r end.
Definition named (l : list string) : string := match l with [a] => a | [a; b] => a ++ " and " ++ b | _ => enumeration l end.

(** a description as a row of the table, which ends its line *)
Definition finished (descr row : string) : Prop :=
  (exists t, row = t ++ "\\") /\ ((exists t, descr = t ++ "\\") -> row = descr) /\ (~ (exists t, descr = t ++ "\\") -> row = descr ++ "\\").
