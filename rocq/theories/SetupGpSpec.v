(** Vocabulary for the setup files with Gaussian processes or decorrelation of C55. *)
From Coq Require Import Reals String List.
From Verif Require Import Py Params Setup SetupSpec.
Import ListNotations.
Open Scope string_scope.

(** one name for each hyper-parameter, followed by nothing or by an underscore and a suffix *)
Definition named_for (names pres : list string) : Prop :=
  NoDup names /\ length names = length pres /\
  forall p, In p pres -> In p names \/ exists s, In (p ++ "_" ++ s) names /\ ~ contains "length" s.
(** the kernel of an instrument *)
Definition kernel_for (P : setup) (nm k : string) : Prop :=
  match P_kernel_name P with None => k = "QuasiPer" | Some kn => dget kn nm = Some k end.
(** the setup file gives the instrument a kernel and its hyper-parameters, which are parameters *)
Definition process_for (P : setup) (nm : string) : Prop :=
  exists hn names k pres, P_hnames P = Some hn /\ dget hn nm = Some names /\ kernel_for P nm k /\ In (k, pres) HYPER /\ named_for names pres /\
    forall s, In s names -> In s (dkeys (ps_items (P_params P))).
(** the columns of the decorrelation variables, in all rows of the instrument *)
Definition has_columns (P : setup) (vars : list string) (nm : string) : Prop :=
  forall o v, In o (P_data P) -> o_tel o = nm -> In v vars -> In v (dkeys (o_cols o)).
