(** Vocabulary for C94. *)
From Coq Require Import Reals String Ascii Bool List.
From Verif Require Import Py PyFloat Params Gp PriorTextSpec.
Import ListNotations.
Open Scope string_scope.

(** numbers written in their own way, none of them as None *)
Definition shown_apart (show : ext -> string) (F : ext -> Prop) : Prop := told_apart show F /\ forall x, F x -> show x <> "None".
(** None, or one of these numbers *)
Definition among (F : ext -> Prop) (x : option R) : Prop := match x with Some v => F (Fin v) | None => True end.
Definition param_among (F : ext -> Prop) (p : param) : Prop := among F (p_value p) /\ among F (p_scale p).
(** the hyper-parameters of a kernel *)
Definition hyper_names (kind : kernel) : list string :=
  match kind with
  | SqExp => ["gp_length"; "gp_amp"]
  | Per => ["gp_per"; "gp_length"; "gp_amp"]
  | QuasiPer => ["gp_per"; "gp_perlength"; "gp_explength"; "gp_amp"]
  end.
Definition hyper_among (F : ext -> Prop) (names : list string) (h : dict (option R)) : Prop := forall k, In k names -> exists x, dget h k = Some x /\ among F x.
Definition same_hyper (names : list string) (h h' : dict (option R)) : Prop := forall k, In k names -> dget h k = dget h' k.
