(** Model of the pipeline status file: save_status, load_status and _pick_sampler of
    radvel/driver.py, with the part of Python's configparser they use (RawConfigParser
    with default settings; Lib/configparser.py of Python 3.11, _read and _write).

    Texts are ASCII.  Any configparser.Error is [PlainException] here, raised at once (the
    library collects parsing errors and raises at the end; nothing is kept in that case).
    Values are the texts written, i.e. str(value). *)
From Coq Require Import String Ascii Arith Bool List.
From Verif Require Import Py Params Mass.
Import ListNotations.
Open Scope string_scope.

Definition nl : ascii := "010"%char.
Definition cr : ascii := "013"%char.
Definition tab : ascii := "009"%char.
(** str.isspace *)
Definition is_space (c : ascii) : bool :=
  let n := nat_of_ascii c in (Nat.leb 9 n && Nat.leb n 13) || (Nat.leb 28 n && Nat.leb n 32).
(** str.lstrip, rstrip, strip *)
Fixpoint lstrip (s : string) : string :=
  match s with String c r => if is_space c then lstrip r else s | "" => "" end.
Fixpoint rstrip (s : string) : string :=
  match s with
  | "" => ""
  | String c r => match rstrip r with "" => if is_space c then "" else String c "" | r' => String c r' end
  end.
Definition strip (s : string) : string := rstrip (lstrip s).
(** position of the first character that is no space *)
Fixpoint indent (s : string) : nat :=
  match s with String c r => if is_space c then S (indent r) else 0 | "" => 0 end.

(** lines of a text file, without their ends (universal newlines) *)
Fixpoint lines (s : string) : list string :=
  match s with
  | "" => []
  | String c r =>
      if Ascii.eqb c nl then "" :: lines r
      else if Ascii.eqb c cr then
        "" :: match r with
              | String c2 r2 => if Ascii.eqb c2 nl then lines r2 else lines r
              | "" => lines r
              end
      else match lines r with [] => [String c ""] | l :: ls => String c l :: ls end
  end.

(** SECTCRE: '[', then text up to the last ']' *)
Fixpoint before_close (s : string) : option string :=
  match s with
  | "" => None
  | String c r =>
      match before_close r with
      | Some h => Some (String c h)
      | None => if Ascii.eqb c "]" then Some "" else None
      end
  end.
Definition header (s : string) : option string :=
  match s with
  | String c r =>
      if Ascii.eqb c "[" then match before_close r with Some "" => None | o => o end else None
  | "" => None
  end.
(** OPTCRE: text before and after the first '=' or ':' *)
Fixpoint option_of (s : string) : option (string * string) :=
  match s with
  | "" => None
  | String c r =>
      if Ascii.eqb c "=" || Ascii.eqb c ":" then Some ("", r)
      else match option_of r with Some (o, v) => Some (String c o, v) | None => None end
  end.

(** a RawConfigParser: the DEFAULT section and the others *)
Record config := mkCfg { c_def : dict string; c_sec : dict (dict string) }.
Definition no_config : config := mkCfg [] [].
(** section names the file can show *)
Definition sec_get (c : config) (sec : string) : option (dict string) :=
  if String.eqb sec "DEFAULT" then Some (c_def c) else dget (c_sec c) sec.
Definition sec_put (c : config) (sec : string) (d : dict string) : config :=
  if String.eqb sec "DEFAULT" then mkCfg d (c_sec c) else mkCfg (c_def c) (dset (c_sec c) sec d).

(** _read.  State: values read (lines of a value joined), current section and option,
    indentation.  Reading always starts from an empty configuration, so a section or
    option seen before is a duplicate. *)
Record rd := mkRd { r_cfg : config; r_sec : option string; r_opt : option string; r_ind : nat }.
Definition more (st : rd) (sec opt x : string) : rd :=
  match sec_get (r_cfg st) sec with
  | Some d =>
      match dget d opt with
      | Some v => mkRd (sec_put (r_cfg st) sec (dset d opt (v ++ String nl x))) (r_sec st) (r_opt st) (r_ind st)
      | None => st
      end
  | None => st
  end.
Definition read_header (st : rd) (ind : nat) (s : string) : res rd :=
  match header s with
  | Some h =>
      if dmem (c_sec (r_cfg st)) h then Err PlainException
      else Ok (mkRd (if String.eqb h "DEFAULT" then r_cfg st else sec_put (r_cfg st) h []) (Some h) None ind)
  | None =>
      match r_sec st with
      | None => Err PlainException
      | Some sec =>
          match option_of s with
          | None => Err PlainException
          | Some (o, v) =>
              let k := lower (rstrip o) in
              match sec_get (r_cfg st) sec with
              | None => Err PlainException
              | Some d =>
                  if String.eqb o "" || dmem d k then Err PlainException
                  else Ok (mkRd (sec_put (r_cfg st) sec (dset d k (strip v))) (Some sec) (Some k) ind)
              end
          end
      end
  end.
Definition read_line (st : rd) (line : string) : res rd :=
  let s := strip line in
  if startswith s "#" || startswith s ";" then Ok st
  else if String.eqb s "" then
    match r_sec st, r_opt st with Some sec, Some opt => Ok (more st sec opt "") | _, _ => Ok st end
  else
    match r_sec st, r_opt st with
    | Some sec, Some opt => if Nat.ltb (r_ind st) (indent line) then Ok (more st sec opt s) else read_header st (indent line) s
    | _, _ => read_header st (indent line) s
    end.
Definition finish_dict (d : dict string) : dict string := map (fun kv => (fst kv, rstrip (snd kv))) d.
Definition finish (c : config) : config :=
  mkCfg (finish_dict (c_def c)) (map (fun kv => (fst kv, finish_dict (snd kv))) (c_sec c)).
Definition parse (text : string) : res config :=
  do st <- for_each (lines text) read_line (mkRd no_config None None 0); Ok (finish (r_cfg st)).

(** _write, _write_section *)
Fixpoint indent_lines (v : string) : string :=
  match v with
  | "" => ""
  | String c r => if Ascii.eqb c nl then String nl (String tab (indent_lines r)) else String c (indent_lines r)
  end.
Definition line_end : string := String nl "".
Fixpoint write_items (d : dict string) : string :=
  match d with
  | [] => ""
  | (k, v) :: r => k ++ " = " ++ indent_lines v ++ line_end ++ write_items r
  end.
Definition write_section (name : string) (d : dict string) : string := "[" ++ name ++ "]" ++ line_end ++ write_items d ++ line_end.
Fixpoint write_sections (l : dict (dict string)) : string :=
  match l with [] => "" | (n, d) :: r => write_section n d ++ write_sections r end.
Definition write (c : config) : string :=
  match c_def c with [] => "" | d => write_section "DEFAULT" d end ++ write_sections (c_sec c).

(** load_status, driver.py:784-798: a missing file gives an empty configuration *)
Definition load_status (file : option string) : res config :=
  match file with None => Ok no_config | Some t => parse t end.

(** config.set: optionxform is lower; an empty section name means DEFAULT *)
Definition cfg_set (c : config) (sec : string) (kv : string * string) : res config :=
  let k := lower (fst kv) in
  if String.eqb sec "" then Ok (mkCfg (dset (c_def c) k (snd kv)) (c_sec c))
  else match dget (c_sec c) sec with
       | None => Err PlainException
       | Some d => Ok (mkCfg (c_def c) (dset (c_sec c) sec (dset d k (snd kv))))
       end.
(** config.add_section *)
Definition add_section (c : config) (sec : string) : res config :=
  if String.eqb sec "DEFAULT" then Err ValueError
  else if dmem (c_sec c) sec then Err PlainException
  else Ok (mkCfg (c_def c) (dset (c_sec c) sec [])).

(** driver.py:769-778: the configuration to be written *)
Definition updated (file : option string) (sec : string) (vars : dict string) : res config :=
  do c <- load_status file;
  do c <- (if dmem (c_sec c) sec then Ok c else add_section c sec);
  for_each vars (fun c kv => cfg_set c sec kv) c.
(** save_status, driver.py:759-781 *)
Definition save_status (file : option string) (sec : string) (vars : dict string) : option string * res unit :=
  match updated file sec vars with
  | Err e => (file, Err e)
  | Ok c => (Some (write c), Ok tt)
  end.
(** files left when the process is killed: open(statfile, 'w') empties the file, then
    some of the text arrives *)
Inductive crashed (file : option string) (sec : string) (vars : dict string) : option string -> Prop :=
| cr_before : crashed file sec vars file
| cr_writing c a b : updated file sec vars = Ok c -> write c = a ++ b -> crashed file sec vars (Some a).

(** ** _pick_sampler, driver.py:540-563 *)

(** has_section *)
Definition has_section (c : config) (sec : string) : bool := dmem (c_sec c) sec.
(** get: NoSectionError, NoOptionError *)
Definition cfg_get (c : config) (sec opt : string) : res string :=
  match sec_get c sec with
  | None => Err PlainException
  | Some d =>
      match dget d (lower opt) with
      | Some v => Ok v
      | None => match dget (c_def c) (lower opt) with Some v => Ok v | None => Err PlainException end
      end
  end.
(** BOOLEAN_STATES, _convert_to_boolean *)
Definition to_boolean (v : string) : res bool :=
  let x := lower v in
  if existsb (String.eqb x) ["1"; "yes"; "true"; "on"] then Ok true
  else if existsb (String.eqb x) ["0"; "no"; "false"; "off"] then Ok false
  else Err ValueError.
Definition getboolean (c : config) (sec opt : string) : res bool := do v <- cfg_get c sec opt; to_boolean v.

Definition has_run (c : config) (sec : string) : res bool :=
  if has_section c sec then getboolean c sec "run" else Ok false.
Definition pick_sampler (sampler : string) (c : config) : res string :=
  do has_mcmc <- has_run c "mcmc";
  do has_ns <- has_run c "ns";
  if negb (has_mcmc || has_ns) then Err AssertionError
  else if String.eqb sampler "auto" then
    (if has_mcmc then Ok "mcmc" else if has_ns then Ok "ns" else Err ValueError)
  else if String.eqb sampler "mcmc" then (if has_mcmc then Ok "mcmc" else Err ValueError)
  else if String.eqb sampler "ns" then (if has_ns then Ok "ns" else Err ValueError)
  else Err ValueError.
