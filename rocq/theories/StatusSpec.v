(** Spec for C46: which names, keys and values a status file can hold. *)
From Coq Require Import String Ascii Bool List.
From Verif Require Import Py Mass Status StatusProofs.
Import ListNotations.
Open Scope string_scope.

Definition delim (c : ascii) : bool := Ascii.eqb c "=" || Ascii.eqb c ":".
Definition commented (s : string) : bool := match s with String c _ => Ascii.eqb c "#" || Ascii.eqb c ";" | "" => false end.
Definition stripped (s : string) : Prop := strip s = s.

(** section names: one non-empty line *)
Definition name_ok (n : string) : Prop := n <> "" /\ sall plain n = true.
(** keys: one line, lower case, no surrounding blanks, no delimiter, no comment sign in front *)
Definition key_ok (k : string) : Prop :=
  k <> "" /\ stripped k /\ lower k = k /\ sall plain k = true /\ sall (fun c => negb (delim c)) k = true /\ commented k = false.
(** values: lines without surrounding blanks, no blank lines at the end, no continuation line that looks like a comment *)
Definition val_ok (v : string) : Prop :=
  sall notcr v = true /\ Forall stripped (pieces v) /\ Forall (fun l => commented l = false) (tl (pieces v)) /\ rstrip v = v.
(** an item that does not look like a section header *)
Definition closeless (s : string) : Prop := sall (fun c => negb (Ascii.eqb c "]")) s = true.
Definition stail (s : string) : string := match s with String _ r => r | "" => "" end.
Definition open_ok (k v : string) : Prop :=
  match k with String c r => c = "["%char -> closeless (stail r) /\ closeless (hd "" (pieces v)) | "" => True end.
Definition item_ok (kv : string * string) : Prop := key_ok (fst kv) /\ val_ok (snd kv) /\ open_ok (fst kv) (snd kv).
Definition dict_ok (d : dict string) : Prop := wf_dict d /\ Forall item_ok d.
Definition cfg_ok (c : config) : Prop :=
  dict_ok (c_def c) /\ wf_dict (c_sec c) /\
  Forall (fun nd => name_ok (fst nd) /\ fst nd <> "DEFAULT" /\ dict_ok (snd nd)) (c_sec c).

(** what the file says about a key of a section *)
Definition status (c : config) (sec k : string) : option string :=
  match dget (c_sec c) sec with Some d => dget d (lower k) | None => None end.

(** one call of save_status with usable arguments *)
Definition save_ok (s : string * dict string) : Prop :=
  name_ok (fst s) /\ fst s <> "DEFAULT" /\
  Forall (fun kv => key_ok (lower (fst kv)) /\ val_ok (snd kv) /\ String.prefix "[" (fst kv) = false) (snd s).
(** the last value given for a key in a sequence of saves *)
Definition last_in (vars : dict string) (k : string) : option string :=
  fold_left (fun o kv => if String.eqb (lower (fst kv)) (lower k) then Some (snd kv) else o) vars None.
Definition last_saved (saves : list (string * dict string)) (sec k : string) : option string :=
  fold_left (fun o s => if String.eqb (fst s) sec then match last_in (snd s) k with Some v => Some v | None => o end else o) saves None.
(** the file after a sequence of calls, and whether all of them returned *)
Fixpoint save_all (file : option string) (saves : list (string * dict string)) : option string * res unit :=
  match saves with
  | [] => (file, Ok tt)
  | (sec, vars) :: r => let '(f, o) := save_status file sec vars in match o with Ok _ => save_all f r | Err e => (f, Err e) end
  end.
