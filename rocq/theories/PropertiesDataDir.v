(** C90: which directory of example data is used. *)
From Coq Require Import String Ascii Bool List.
From Verif Require Import Py DataDir DataDirSpec DataDirThms.
Import ListNotations.
Open Scope string_scope.

(** A directory named by the user in RADVEL_DATADIR is used, whatever else there is, even where the working directory was
    removed. *)
Theorem C90_named : forall isdir cwd file prefix env d, dget env "RADVEL_DATADIR" = Some d -> d <> "" -> isdir d = true ->
  datadir isdir cwd file prefix env = Ok (d, []).
Proof. exact named. Qed.
Print Assumptions C90_named.

Example C90_named_ex : datadir xdisk (Err FileNotFoundError) "/usr/lib/radvel/__init__.py" "/usr" [("RADVEL_DATADIR", "/tmp/example_data")] = Ok ("/tmp/example_data", []).
Proof. apply named; [reflexivity|discriminate|reflexivity]. Qed.

(** Otherwise the first that exists of: example_data beside the tree, in the working directory and in the tree, and
    radvel_example_data in sys.prefix; without a warning. *)
Theorem C90_found : forall isdir up tree w prefix env, plain up -> tree <> "" -> one_name tree -> plain w -> plain prefix -> not_named isdir env ->
  forall d, first_dir isdir ([inside up "example_data"; inside w "example_data"; inside (inside up tree) "example_data"] ++ [inside prefix "radvel_example_data"])%list d ->
  datadir isdir (Ok w) (init_of up tree) prefix env = Ok (d, []).
Proof. exact found. Qed.
Print Assumptions C90_found.

Example C90_found_ex : datadir xdisk (Ok "/tmp") (init_of "/usr/lib/python3" "site-packages") "/usr" [("RADVEL_DATADIR", "")] = Ok ("/tmp/example_data", []).
Proof.
  destruct xplain as (A & B & C & D & E & F). refine (found _ _ _ _ _ _ A _ F _ C _ _ _); [discriminate| | |].
  - split; [discriminate|]. intros a G. repeat (destruct a as [|? a]; [discriminate|cbn in G; first [discriminate G | injection G as _ G]]).
  - intros d G. injection G as <-. now left.
  - exists ["/usr/lib/python3/example_data"], ["/usr/lib/python3/site-packages/example_data"; "/usr/radvel_example_data"]. split; [reflexivity|]. split; [reflexivity|]. intros x [<-|[]]. reflexivity.
Qed.

(** If none of these exists, the one of the user's own installation, with warnings; and if there is none either, the import
    goes on with a directory that is not there, and says so. *)
Theorem C90_home : forall isdir up tree w prefix env, plain up -> tree <> "" -> one_name tree -> plain w -> plain prefix -> not_named isdir env ->
  forall h, no_dir isdir ([inside up "example_data"; inside w "example_data"; inside (inside up tree) "example_data"] ++ [inside prefix "radvel_example_data"])%list ->
  dget env "HOME" = Some h -> plain h ->
  let there := inside (inside h ".local") "radvel_example_data" in
  let w1 := "Could not find radvel_example_data directory in " ++ prefix in
  (isdir there = true -> datadir isdir (Ok w) (init_of up tree) prefix env = Ok (there, [w1; "Found radvel_example_data in ~/.local"])) /\
  (isdir there = false -> datadir isdir (Ok w) (init_of up tree) prefix env =
     Ok (inside prefix "radvel_example_data", [w1; "Failed to locate radvel_example_data directory. Example setup files will not work."])).
Proof. exact home. Qed.
Print Assumptions C90_home.

Example C90_home_ex : datadir xlocal (Ok "/srv") (init_of "/usr/lib/python3" "site-packages") "/usr" xhome =
  Ok ("/home/u/.local/radvel_example_data", ["Could not find radvel_example_data directory in /usr"; "Found radvel_example_data in ~/.local"]).
Proof.
  destruct xplain as (A & B & C & D & E & F). exact (proj1 (home xlocal "/usr/lib/python3" "site-packages" "/srv" "/usr" xhome A ltac:(discriminate) F B C xnamed "/home/u" xno_dir eq_refl D) eq_refl).
Qed.

(** The claim that a package in its source tree uses the data of that tree holds if there is no example_data beside the
    tree and none in the working directory, or the working directory is the tree. *)
Theorem C90_own_partial : forall isdir up tree w prefix env, plain up -> tree <> "" -> one_name tree -> plain w -> not_named isdir env ->
  isdir (inside (inside up tree) "example_data") = true -> isdir (inside up "example_data") = false ->
  w = inside up tree \/ isdir (inside w "example_data") = false ->
  datadir isdir (Ok w) (init_of up tree) prefix env = Ok (inside (inside up tree) "example_data", []).
Proof. exact own. Qed.
Print Assumptions C90_own_partial.

Example C90_own_partial_ex : datadir (String.eqb "/home/u/src/radvel/example_data") (Ok "/srv") (init_of "/home/u/src" "radvel") "/usr" [] = Ok ("/home/u/src/radvel/example_data", []).
Proof.
  destruct xplain as (A & B & C & D & E & F). refine (own _ _ _ _ _ _ E _ (proj1 name_radvel) B _ _ _ _); try discriminate; try reflexivity. now right.
Qed.

(** It is false in general: the path called the source directory is one level above the tree, so that a directory beside
    the tree is preferred to the tree's own, even in the tree; *)
Theorem C90_own_refuted : exists isdir up tree w prefix env, plain up /\ one_name tree /\ tree <> "" /\ plain w /\ plain prefix /\ not_named isdir env /\
  isdir (inside (inside up tree) "example_data") = true /\ w = inside up tree /\
  datadir isdir (Ok w) (init_of up tree) prefix env = Ok (inside up "example_data", []).
Proof. exact own_not_always. Qed.
Print Assumptions C90_own_refuted.

(** and so is any example_data of the working directory. *)
Theorem C90_elsewhere_refuted : exists isdir up tree w prefix env, plain up /\ one_name tree /\ tree <> "" /\ plain w /\ plain prefix /\ not_named isdir env /\
  isdir (inside (inside up tree) "example_data") = true /\ isdir (inside up "example_data") = false /\
  datadir isdir (Ok w) (init_of up tree) prefix env = Ok (inside w "example_data", []).
Proof. exact own_not_elsewhere. Qed.
Print Assumptions C90_elsewhere_refuted.

(** The package can be imported without example data only where HOME is set (C90_home): without it the search raises; *)
Theorem C90_no_home : forall isdir up tree w prefix env, plain up -> tree <> "" -> one_name tree -> plain w -> plain prefix -> not_named isdir env ->
  no_dir isdir ([inside up "example_data"; inside w "example_data"; inside (inside up tree) "example_data"] ++ [inside prefix "radvel_example_data"])%list ->
  dget env "HOME" = None -> datadir isdir (Ok w) (init_of up tree) prefix env = Err (KeyError "HOME").
Proof. exact no_home. Qed.
Print Assumptions C90_no_home.

Theorem C90_import_refuted : exists isdir up tree w prefix env, plain up /\ one_name tree /\ tree <> "" /\ plain w /\ plain prefix /\ not_named isdir env /\
  datadir isdir (Ok w) (init_of up tree) prefix env = Err (KeyError "HOME").
Proof. exact import_not_always. Qed.
Print Assumptions C90_import_refuted.

(** and it raises in a working directory that was removed, unless RADVEL_DATADIR is given. *)
Theorem C90_gone : forall isdir e file prefix env, not_named isdir env -> datadir isdir (Err e) file prefix env = Err e.
Proof. exact gone. Qed.
Print Assumptions C90_gone.

Example C90_gone_ex : datadir xlocal (Err FileNotFoundError) "/usr/lib/radvel/__init__.py" "/usr" xhome = Err FileNotFoundError.
Proof. exact (gone _ _ _ _ _ xnamed). Qed.
