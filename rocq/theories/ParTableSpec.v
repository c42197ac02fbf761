(** What the theorems on the parameter table (C64) are stated with. *)
From Coq Require Import String List.
From Verif Require Import Py Params DecorrSpec ParTable.
Import ListNotations.
Open Scope string_scope.

(** the suffix [s] occurs in [b ++ s] only at the end *)
Definition only_at_end (s b : string) : Prop := forall a c, b ++ s = a ++ s ++ c -> c = "".
(** [s] is the only one of [suffixes] that occurs in [p] *)
Definition only_suffix (suffixes : list string) (s p : string) : Prop := In s suffixes /\ forall s', In s' suffixes -> occurs s' p -> s' = s.
(** every name with every number from 1 to [n] *)
Definition numbered (names : list string) (n : nat) : list string := flat_map (fun i => map (fun p => key p i) names) (seq 1 n).
(** a name that survives being joined and split again *)
Definition one_word (p : string) : Prop := p <> "" /\ ~ occurs " " p.

Section Own.
  Variables (C Q T N : Type).
  Variables (chains : dict C) (quant : dict Q) (maxparams : dict N) (latex : dict string).
  Variables (geterr : C -> res T) (of_quantiles : Q -> T) (show : T -> N -> option Q -> res string).
  (** the row [r] shows label, statistics and best value of parameter [k], with unit [u] *)
  Definition own_row (k u : string) (r : trow) : Prop :=
    w_key r = k /\ w_unit r = u /\ dget latex k = Some (w_tex r) /\
    exists t m, dget maxparams k = Some m /\ show t m (dget quant k) = Ok (w_text r) /\
      ((u = "radians" /\ exists c, dget chains k = Some c /\ geterr c = Ok t) \/
       (u <> "radians" /\ exists q, dget quant k = Some q /\ t = of_quantiles q)).
  (** parameter [k] has a label and a best value *)
  Definition listed (k : string) : bool := dmem maxparams k && dmem latex k.
  (** statistics and formatting succeed *)
  Definition formats : Prop := (forall c, exists t, geterr c = Ok t) /\ forall t m q, exists s, show t m q = Ok s.
End Own.
