(** Model of the search for the directory of the example data, radvel/__init__.py:35-67.

    [isdir] is os.path.isdir on the disk at the time of the import, any function; [cwd] is os.getcwd(), which raises if the
    directory was removed; [prefix] is sys.prefix and [file] is __file__.  Warnings are collected as texts; filters that
    turn warnings into errors are not modelled.  Paths are those of POSIX. *)
From Coq Require Import String Ascii Bool List.
From Verif Require Import Py.
Import ListNotations.
Open Scope string_scope.

(** posixpath: p[:p.rfind('/') + 1] *)
Fixpoint upto_slash (p : string) : string :=
  match p with
  | "" => ""
  | String c r => match upto_slash r with
                  | "" => if Ascii.eqb c "/" then "/" else ""
                  | h => String c h
                  end
  end.
(** head.rstrip('/') *)
Fixpoint unslash (h : string) : string :=
  match h with
  | "" => ""
  | String c r => match unslash r with
                  | "" => if Ascii.eqb c "/" then "" else String c ""
                  | u => String c u
                  end
  end.
(** posixpath.dirname, which is also the first part of os.path.split: a head of slashes only is kept *)
Definition dirname (p : string) : string :=
  let h := upto_slash p in match unslash h with "" => h | u => u end.
Fixpoint ends_slash (p : string) : bool :=
  match p with "" => false | String c "" => Ascii.eqb c "/" | String _ r => ends_slash r end.
Definition starts_slash (p : string) : bool := match p with String c _ => Ascii.eqb c "/" | "" => false end.
(** posixpath.join of two *)
Definition path_join (a b : string) : string :=
  if starts_slash b then b else if String.eqb a "" || ends_slash a then a ++ b else a ++ "/" ++ b.

(** the loop of __init__.py:50-53 *)
Fixpoint first_found (isdir : string -> bool) (l : list string) : option string :=
  match l with [] => None | d :: r => if isdir d then Some d else first_found isdir r end.

Section Search.
  Variables (isdir : string -> bool) (cwd : res string) (file prefix : string) (env : dict string).
  (** __init__.py:35 *)
  Definition moduledir : string := dirname file.
  (** __init__.py:44-48 *)
  Definition possible_dirs : res (list string) :=
    do w <- cwd;
    Ok [ path_join (dirname (dirname moduledir)) "example_data"; path_join w "example_data"; path_join (dirname (dirname file)) "example_data" ].
  (** __init__.py:38-53 *)
  Definition local_dir : res (option string) :=
    match dget env "RADVEL_DATADIR" with
    | Some d => if negb (String.eqb d "") && isdir d then Ok (Some d) else do l <- possible_dirs; Ok (first_found isdir l)
    | None => do l <- possible_dirs; Ok (first_found isdir l)
    end.
  (** __init__.py:38-67: DATADIR and the warnings *)
  Definition datadir : res (string * list string) :=
    do o <- local_dir;
    match o with
    | Some d => Ok (d, [])
    | None =>
        let d := path_join prefix "radvel_example_data" in
        if isdir d then Ok (d, [])
        else
          let w1 := "Could not find radvel_example_data directory in " ++ prefix in
          do h <- dget_res env "HOME";
          let trydir := path_join (path_join h ".local") "radvel_example_data" in
          if isdir trydir then Ok (trydir, [w1; "Found radvel_example_data in ~/.local"])
          else Ok (d, [w1; "Failed to locate radvel_example_data directory. Example setup files will not work."])
    end.
End Search.
