(** What the theorems on the table of derived parameters (C68) are stated with. *)
From Coq Require Import Reals String Arith List Permutation.
From Verif Require Import Py Params Stats PostProc ParTable ParTableSpec DerivTab.
Import ListNotations.
Open Scope R_scope.
Open Scope string_scope.

Definition DERIVED : list string := ["mpsini"; "rhop"; "a"].
(** the column [k] has samples without gaps *)
Definition usable (chains : dict (list R)) (nulls : list string) (k : string) : bool := dmem chains k && negb (existsb (String.eqb k) nulls).
(** TeX text of a derived parameter of the planet with this letter *)
Definition dtex (p letter : string) : string :=
  match dget [("mpsini", "$M_" ++ letter ++ "\sin i$"); ("rhop", "$\rho_" ++ letter ++ "$"); ("a", "$a_" ++ letter ++ "$")] p with Some t => t | None => "" end.
(** samples [col] of [p], in Earth masses, g/cm3 or AU, are shown as [col'] with unit [u] *)
Definition shown_as (p : string) (col col' : list R) (u : string) : Prop :=
  (p = "mpsini" /\ median col <= 100 /\ u = EARTH /\ col' = col) \/
  (p = "mpsini" /\ 100 < median col /\ u = JUP /\ col' = map (fun x => x * (315 / 100000)) col) \/
  (p = "rhop" /\ u = " g cm$^{-3}$" /\ col' = col) \/ (p = "a" /\ u = " AU" /\ col' = col).
(** letter of planet [n] *)
Definition dletter (letters : option (list (nat * string))) (n : nat) (l : string) : Prop :=
  exists a b, match letters with Some d => d | None => combine (seq 1 10) ["b"; "c"; "d"; "e"; "f"; "g"; "h"; "i"; "j"; "k"] end = (a ++ (n, l) :: b)%list /\ ~ In n (map fst a).
(** [i] is the first place of the largest entry *)
Definition first_max (l : list R) (i : nat) : Prop :=
  (i < length l)%nat /\ (forall j, (j < length l)%nat -> nth j l 0 <= nth i l 0) /\ (forall j, (j < i)%nat -> nth j l 0 < nth i l 0).
(** some order of the members of a set *)
Definition set_order (f : list string -> list string) : Prop := forall l, NoDup (f l) /\ forall x, In x (f l) <-> In x l.
