(** What the theorems on the files of a report (C82) are stated with. *)
From Coq Require Import String Ascii Arith Bool List.
From Verif Require Import Py Params Pipeline TabRun ReportFile.
Import ListNotations.
Open Scope string_scope.

(** the name of a setup file without directory and ending *)
Definition base_name (s : string) : Prop := ~ In "/"%char (list_ascii_of_string s) /\ ~ In "."%char (list_ascii_of_string s).
(** a path is a name in a directory, or a bare name *)
Definition names (path dir name : string) : Prop := ~ In "/"%char (list_ascii_of_string name) /\ (path = dir ++ "/" ++ name \/ (path = name /\ dir = "")).
(** a file name is that of a recorded plot *)
Definition recorded (plots : dict string) (f : string) : Prop := exists k p, In (k, p) plots /\ exists dir, names p dir f.
(** every recorded plot is in the output directory *)
Definition kept {F} (w : files F) : Prop := match r_plots w with None => True | Some plots => forall f, recorded plots f -> exists x, dget (r_out w) f = Some x end.
(** the directory the compiler starts in: the recorded plots and the document *)
Definition workplace {F} (out : dict F) (plots : dict string) (texname : string) (x : F) (t : dict F) : Prop :=
  dget t texname = Some x /\ forall f, f <> texname -> (recorded plots f -> dget t f = dget out f) /\ (~ recorded plots f -> dget t f = None).
(** a session of plot commands *)
Definition plot_session {F} (rel conf_base : string) (cmds : list ((ptype -> res F) * list ptype)) (w : files F) : files F :=
  fold_left (fun w c => fst (plot_cmd F rel conf_base (fst c) (snd c) (w, None))) cmds w.
(** the figures of a document and the plots they are *)
Definition figure_of (t : ptype) : option string := match t with PRv => Some "rv_multipanel" | PCorner => Some "corner" | PDerived => Some "corner_derived_pars" | _ => None end.
