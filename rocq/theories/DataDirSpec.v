(** What the search for the example data is to find. *)
From Coq Require Import String Ascii Bool List.
From Verif Require Import Py.
Import ListNotations.
Open Scope string_scope.

(** a directory written without a slash at its end *)
Definition plain (d : string) : Prop := d <> "" /\ forall a, d <> a ++ "/".
(** the name of a file or directory *)
Definition one_name (n : string) : Prop := forall a b, n <> a ++ "/" ++ b.
(** what [name] is in a directory *)
Definition inside (d name : string) : string := d ++ "/" ++ name.
(** the first of several that is a directory *)
Definition first_dir (isdir : string -> bool) (l : list string) (d : string) : Prop :=
  exists a b, l = (a ++ d :: b)%list /\ isdir d = true /\ forall x, In x a -> isdir x = false.
Definition no_dir (isdir : string -> bool) (l : list string) : Prop := forall x, In x l -> isdir x = false.
(** the user has named no directory *)
Definition not_named (isdir : string -> bool) (env : dict string) : Prop :=
  forall d, dget env "RADVEL_DATADIR" = Some d -> d = "" \/ isdir d = false.
(** a package in the tree [up]/[tree], imported from [up]/[tree]/radvel/__init__.py *)
Definition init_of (up tree : string) : string := inside (inside (inside up tree) "radvel") "__init__.py".
