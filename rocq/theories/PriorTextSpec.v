(** Spec for C89: what a description can tell. *)
From Coq Require Import Reals String Ascii Arith Bool List.
From Verif Require Import Py PyFloat Prior.
Import ListNotations.
Open Scope string_scope.

(** the character does not occur *)
Definition free (c : ascii) (s : string) : Prop := ~ In c (list_ascii_of_string s).
(** a name or number as it stands in a line, before a comma *)
Definition plain (s : string) : Prop := free "," s /\ free "010" s.
(** the numbers [F] (say, the floats) are each written in their own way *)
Definition told_apart (show : ext -> string) (F : ext -> Prop) : Prop :=
  (forall x, F x -> plain (show x)) /\ (forall x y, F x -> F y -> show x = show y -> x = y).
(** a prior as its constructor makes it, of a kind whose description names all it is made of *)
Definition stated (F : ext -> Prop) (p : prior) : Prop :=
  match p with
  | PGaussian s mu sigma => plain s /\ F (Fin mu) /\ F (Fin sigma)
  | PEcc pl lims => length lims = length pl /\ Forall (fun u => F (Fin u)) lims
  | PHard s a b => plain s /\ F a /\ F b
  | PJeffreys s a b _ => plain s /\ F (Fin a) /\ F (Fin b) /\ jeffreys_init s a b = Ok p
  | PModJeffreys s a b k _ => plain s /\ F (Fin a) /\ F (Fin b) /\ F (Fin k) /\ mod_jeffreys_init s a b k = Ok p
  | PBaseline s base dur => plain s /\ F (Fin base) /\ F (Fin dur)
  | _ => False
  end.
(** of one line *)
Definition one_line (p : prior) : Prop := match p with PEcc pl _ => length pl = 1%nat | _ => True end.
