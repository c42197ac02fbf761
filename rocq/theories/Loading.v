(** Model of load_module_from_file and cmd_exists, radvel/utils.py:21-48, 406-409, and of what the former calls:
    importlib.util.spec_from_file_location and SourceLoader.get_code of Python 3.5 or later, including the compiled copy
    Python keeps in __pycache__.

    A compiled copy is told by the text it was compiled from.  Modification times are whole seconds, as Python compares
    them; the size of a file is the number of its characters.  Simplified: one source file; times below 2^32; copies that
    are checked by hash, damaged copies and copies of another Python version are not modelled; a file that exists can be
    read; what the setup file does when executed is not modelled (Setup.v takes its result).  Branch for Python 2: not modelled. *)
From Coq Require Import String Ascii Arith Bool List.
From Verif Require Import Py Kwargs PriorTab DataDir.
Import ListNotations.
Open Scope string_scope.

Record source := mkSource { s_text : string; s_time : nat }.
Record copy := mkCopy { c_text : string; c_time : nat; c_size : nat }.
Record disk := mkDisk { d_source : option source; d_copy : option copy }.
(** what comes of it: the module made by executing this text, a module that is not Python source (extension or compiled
    file), or an exception; [NoneSpec] is AttributeError: 'NoneType' object has no attribute 'loader' *)
Inductive outcome := Executed (text : string) | Foreign | NoneSpec | NotFound | BadSyntax | Unbound.

Section Load.
  (** suffixes of extension modules, _imp.extension_suffixes(); which texts are Python; whether the copy can be written *)
  Variables (ext_suffixes : list string) (compiles : string -> bool) (writable : bool).

  (** SourceLoader.get_code, importlib/_bootstrap_external.py *)
  Definition get_code (d : disk) : outcome * disk :=
    match d_source d with
    | None => (NotFound, d)
    | Some s =>
        let size := String.length (s_text s) in
        let fresh := match d_copy d with
                     | Some c => if Nat.eqb (c_time c) (s_time s) && Nat.eqb (c_size c) size then Some c else None
                     | None => None
                     end in
        match fresh with
        | Some c => (Executed (c_text c), d)
        | None =>
            if compiles (s_text s)
            then (Executed (s_text s), if writable then mkDisk (d_source d) (Some (mkCopy (s_text s) (s_time s) size)) else d)
            else (BadSyntax, d)
        end
    end.
  (** the loop over the loaders in spec_from_file_location *)
  Inductive loader := ExtensionLoader | SourceLoader | SourcelessLoader.
  Definition loader_of (path : string) : option loader :=
    if existsb (endswith path) ext_suffixes then Some ExtensionLoader
    else if endswith path ".py" then Some SourceLoader
    else if endswith path ".pyc" then Some SourcelessLoader
    else None.
  (** utils.py:35-48, for Python [major].[minor] *)
  Definition load_module_from_file (major minor : nat) (path : string) (d : disk) : outcome * disk :=
    if Nat.eqb major 3 && Nat.leb 5 minor then
      match loader_of path with
      | None => (NoneSpec, d)
      | Some SourceLoader => get_code d
      | Some _ => (Foreign, d)
      end
    else if Nat.eqb major 3 then get_code d
    else (Unbound, d).

  (** the history of one setup file: edited at some second, removed, loaded by a command *)
  Inductive action := Edit (text : string) (time : nat) | Remove | Command.
  Definition act (major minor : nat) (path : string) (st : list outcome * disk) (a : action) : list outcome * disk :=
    let '(outs, d) := st in
    match a with
    | Edit text time => (outs, mkDisk (Some (mkSource text time)) (d_copy d))
    | Remove => (outs, mkDisk None (d_copy d))
    | Command => let '(o, d1) := load_module_from_file major minor path d in ((outs ++ [o])%list, d1)
    end.
  Definition run (major minor : nat) (path : string) (h : list action) : list outcome :=
    fst (fold_left (act major minor path) h ([], mkDisk None None)).
End Load.

(** what is found at a path, and os.access(path, os.X_OK) for it: a directory has the flag if it can be searched *)
Inductive entry := Program (x : bool) | Directory (x : bool).
Definition access_x (at_path : string -> option entry) (p : string) : bool :=
  match at_path p with Some (Program x) => x | Some (Directory x) => x | None => false end.
(** utils.py:406-409; os.pathsep is ':' *)
Definition cmd_exists (at_path : string -> option entry) (env : dict string) (cmd : string) : res bool :=
  do path <- dget_res env "PATH";
  Ok (existsb (fun d => access_x at_path (path_join d cmd)) (split_on ":" path)).
