(** What sampling in several processes should agree on with sampling in one. *)
From Coq Require Import Reals List Bool.
From Verif Require Import Py.
Import ListNotations.

(** both return the same, or both raise *)
Definition agrees {A} (r r' : res A) : Prop :=
  match r, r' with Ok a, Ok b => a = b | Err _, Err _ => True | _, _ => False end.

(** [eval] answers with [f] from every state in [I], and stays there *)
Definition steady {PS} (eval : PS -> list (option R) -> PS * res ext) (f : list (option R) -> res ext) (I : PS -> Prop) : Prop :=
  forall ps x, I ps -> I (fst (eval ps x)) /\ snd (eval ps x) = f x.
