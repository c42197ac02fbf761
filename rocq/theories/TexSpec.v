(** What the theorems on TeX labels (C67) are stated with. *)
From Coq Require Import String Ascii Arith Bool List.
From Verif Require Import Py Params DecorrSpec.
Import ListNotations.
Open Scope string_scope.

(** symbols of the orbital parameters *)
Definition SYMBOLS : list (string * string) :=
  [("per", "P"); ("logper", "\ln{P}"); ("tp", "T\rm{peri}"); ("tc", "T\rm{conj}"); ("e", "e"); ("w", "\omega"); ("k", "K"); ("logk", "\ln{K}");
   ("secosw", "\sqrt{e}\cos{\omega}"); ("sesinw", "\sqrt{e}\sin{\omega}"); ("ecosw", "e\cos{\omega}"); ("esinw", "e\sin{\omega}"); ("se", "se")].
(** letter of planet [n]: the one given, by default b for the first, c for the second ... *)
Definition letter_of (letters : option (list (nat * string))) (n : nat) (l : string) : Prop :=
  match letters with
  | Some d => exists a b, d = (a ++ (n, l) :: b)%list /\ ~ In n (map fst a)
  | None => nth_error ["b"; "c"; "d"; "e"; "f"; "g"; "h"; "i"; "j"] (n - 1) = Some l
  end.
(** names that set off a substitution of their own inside another name *)
Definition MARKS : list string :=
  ["dvdt"; "curv"; "gp_amp"; "gp_explength"; "gp_per"; "gp_perlength"; "gp_length"; "gp_B"; "gp_C"; "gp_L"; "gp_Prot"].
Definition plain_name (inst : string) : Prop := inst <> "" /\ forall m, In m ("gamma_" :: "jit_" :: MARKS) -> ~ occurs m inst.
(** hyperparameters of a Gaussian process with their symbol less the closing brace *)
Definition HYPERS : list (string * string) :=
  [("gp_amp", "\eta_{1"); ("gp_explength", "\eta_{2"); ("gp_per", "\eta_{3"); ("gp_perlength", "\eta_{4"); ("gp_length", "\eta_{2"); ("gp_Prot", "P_{\rm rot")].
Definition ends_in_digit (k : string) : Prop := exists p c, k = (p ++ String c "") /\ (48 <= nat_of_ascii c <= 57)%nat.

(** braces match *)
Fixpoint depth (s : string) (d : nat) : option nat :=
  match s with
  | "" => Some d
  | String c r => if Ascii.eqb c "{" then depth r (S d) else if Ascii.eqb c "}" then match d with O => None | S d' => depth r d' end else depth r d
  end.
Definition balanced (s : string) : Prop := depth s 0 = Some 0%nat.
Definition no_brace (s : string) : Prop := ~ occurs "{" s /\ ~ occurs "}" s.
