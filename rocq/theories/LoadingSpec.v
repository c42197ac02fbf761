(** Vocabulary for C91 and C92. *)
From Coq Require Import String Ascii Bool List.
From Verif Require Import Py Loading.
Import ListNotations.
Open Scope string_scope.

(** the text of the file after a history: that of the last edit, nothing if it was removed since *)
Definition holds_text (h : list action) (s : string) : Prop :=
  exists t pre post, h = (pre ++ Edit s t :: post)%list /\ forall a, In a post -> a = Command.
Definition holds_none (h : list action) : Prop :=
  (forall a, In a h -> a = Command) \/ exists pre post, h = (pre ++ Remove :: post)%list /\ forall a, In a post -> a = Command.
(** the answer a command should get from a file with this text *)
Definition answer (compiles : string -> bool) (s : string) : outcome := if compiles s then Executed s else BadSyntax.
(** edits that leave different texts of one size are made in different seconds *)
Definition told_apart (h : list action) : Prop :=
  forall s t s', In (Edit s t) h -> In (Edit s' t) h -> String.length s = String.length s' -> s = s'.
(** a name of a Python source file *)
Definition ends_in (p suffix : string) : Prop := exists q, p = q ++ suffix.
Definition source_name (exts : list string) (p : string) : Prop := ends_in p ".py" /\ forall e, In e exts -> ~ ends_in p e.

(** the directories named in a PATH, between colons *)
Definition no_colon (d : string) : Prop := ~ In ":"%char (list_ascii_of_string d).
Definition named_in (path d : string) : Prop :=
  no_colon d /\ exists pre post, path = pre ++ d ++ post /\ (pre = "" \/ exists p, pre = p ++ ":") /\ (post = "" \/ exists p, post = ":" ++ p).
(** the place of a command without slash in a directory *)
Definition place (d cmd p : string) : Prop := (d = "" /\ p = cmd) \/ (ends_in d "/" /\ p = d ++ cmd) \/ (d <> "" /\ ~ ends_in d "/" /\ p = d ++ "/" ++ cmd).
Definition plain (cmd : string) : Prop := ~ exists c, cmd = "/" ++ c.
