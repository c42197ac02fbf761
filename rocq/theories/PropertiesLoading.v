(** Property theorems C91 and C92: loading a setup file, looking for a program. *)
From Coq Require Import String Ascii Arith Bool Lia List.
From Verif Require Import Py PyFacts PriorTab PriorTabProofs DataDir Loading LoadingSpec LoadingThms.
Import ListNotations.
Open Scope string_scope.

(** * C91 *)
(** A file either has a text or is not there. *)
Theorem C91_always : forall h, (exists s, holds_text h s) \/ holds_none h.
Proof. exact holds_one. Qed.
Print Assumptions C91_always.

(** Every command executes the text the file has, whatever was edited, removed and loaded before, as long as texts of one
    size are not exchanged within one second.  Missing from the full statement: that condition (C91_edits_refuted). *)
Theorem C91_edits_partial : forall exts compiles writable minor path, (5 <= minor)%nat -> source_name exts path ->
  forall h s, told_apart h -> holds_text h s ->
  run exts compiles writable 3 minor path (h ++ [Command])%list = (run exts compiles writable 3 minor path h ++ [answer compiles s])%list.
Proof. exact text_answered. Qed.
Print Assumptions C91_edits_partial.

Example C91_edits_partial_ex :
  told_apart [Edit "k = 1" 7; Command; Edit "k = 2" 8; Command; Edit "k = 10" 8] /\
  run [".so"] (fun _ => true) true 3 8 "/w/hd.py" [Edit "k = 1" 7; Command; Edit "k = 2" 8; Command; Edit "k = 10" 8; Command] = [Executed "k = 1"; Executed "k = 2"; Executed "k = 10"].
Proof.
  split; [|reflexivity]. intros s t s' H H' L. cbn in H, H'. repeat (destruct H as [H|H]; try discriminate); try contradiction; injection H as <- <-;
  repeat (destruct H' as [H'|H']; try discriminate); try contradiction; injection H' as <-; try reflexivity; discriminate.
Qed.

(** Two texts of one size, the second saved in the second in which the first was: the command executes the first again. *)
Theorem C91_edits_refuted : forall exts compiles minor path s s' t, (5 <= minor)%nat -> source_name exts path ->
  compiles s = true -> s <> s' -> String.length s = String.length s' ->
  holds_text [Edit s t; Command; Edit s' t] s' /\ run exts compiles true 3 minor path [Edit s t; Command; Edit s' t; Command] = [Executed s; Executed s].
Proof. exact edits_not_always. Qed.
Print Assumptions C91_edits_refuted.

Example C91_edits_refuted_ex : source_name [".so"] "/w/hd.py" /\
  run [".so"] (fun _ => true) true 3 8 "/w/hd.py" [Edit "vary=True " 7; Command; Edit "vary=False" 7; Command] = [Executed "vary=True "; Executed "vary=True "].
Proof.
  assert (source_name [".so"] "/w/hd.py") as S. { split; [now exists "/w/hd"|]. intros e [<-|[]] E. apply endswith_spec in E. discriminate E. }
  split; [exact S|]. apply (C91_edits_refuted [".so"] (fun _ => true) 8 "/w/hd.py" "vary=True " "vary=False" 7); try reflexivity; [lia|exact S|discriminate].
Qed.

(** A file that is not there is reported as such, also if a compiled copy of it is left. *)
Theorem C91_missing : forall exts compiles writable minor path, (5 <= minor)%nat -> source_name exts path ->
  forall h, holds_none h -> run exts compiles writable 3 minor path (h ++ [Command])%list = (run exts compiles writable 3 minor path h ++ [NotFound])%list.
Proof. exact none_answered. Qed.
Print Assumptions C91_missing.

Example C91_missing_ex : holds_none [Edit "k = 1" 7; Command; Remove] /\
  run [".so"] (fun _ => true) true 3 8 "/w/hd.py" [Edit "k = 1" 7; Command; Remove; Command] = [Executed "k = 1"; NotFound].
Proof. split; [|reflexivity]. right. exists [Edit "k = 1" 7; Command], []. split; [reflexivity|intros a []]. Qed.

(** A setup file whose name has none of the suffixes Python knows ends in AttributeError, not in the ImportError or
    FileNotFoundError of the description, whether it is there or not. *)
Theorem C91_suffix_refuted : forall exts compiles writable minor path d, (5 <= minor)%nat ->
  ~ ends_in path ".py" -> ~ ends_in path ".pyc" -> (forall e, In e exts -> ~ ends_in path e) ->
  load_module_from_file exts compiles writable 3 minor path d = (NoneSpec, d).
Proof. exact suffix_refused. Qed.
Print Assumptions C91_suffix_refuted.

Example C91_suffix_refuted_ex : fst (load_module_from_file [".so"] (fun _ => true) true 3 8 "/w/hd.txt" (mkDisk (Some (mkSource "k = 1" 7)) None)) = NoneSpec.
Proof.
  rewrite C91_suffix_refuted; [reflexivity|lia| | |intros e [<-|[]]];
  intro E; apply endswith_spec in E; discriminate E.
Qed.

(** With a later major version of Python no setup file can be loaded: none of the branches is taken. *)
Theorem C91_version : forall exts compiles writable major minor path d, (4 <= major)%nat ->
  load_module_from_file exts compiles writable major minor path d = (Unbound, d).
Proof. exact later_python. Qed.
Print Assumptions C91_version.

Example C91_version_ex : fst (load_module_from_file [".so"] (fun _ => true) true 4 0 "/w/hd.py" (mkDisk (Some (mkSource "k = 1" 7)) None)) = Unbound.
Proof. rewrite C91_version; [reflexivity|lia]. Qed.

(** * C92 *)
(** It answers whether one of the directories has an entry of that name with the flag. *)
Theorem C92_found : forall at_path env cmd path, plain cmd -> dget env "PATH" = Some path -> exists b, cmd_exists at_path env cmd = Ok b /\
  (b = true <-> exists d p, named_in path d /\ place d cmd p /\ (at_path p = Some (Program true) \/ at_path p = Some (Directory true))).
Proof. exact exists_spec. Qed.
Print Assumptions C92_found.

Example C92_found_ex : cmd_exists (fun p => if String.eqb p "/usr/bin/pdflatex" then Some (Program true) else None) [("PATH", "/bin:/usr/bin/::/opt")] "pdflatex" = Ok true /\
  cmd_exists (fun p => if String.eqb p "/usr/bin/pdflatex" then Some (Program false) else None) [("PATH", "/bin:/usr/bin:/opt")] "pdflatex" = Ok false.
Proof. split; reflexivity. Qed.

(** That is whether there is such a program, if no directory on the way has its name.  Missing from the full statement:
    that condition (C92_directory_refuted). *)
Theorem C92_program_partial : forall at_path env cmd path, plain cmd -> dget env "PATH" = Some path ->
  (forall d p, named_in path d -> place d cmd p -> forall x, at_path p <> Some (Directory x)) ->
  exists b, cmd_exists at_path env cmd = Ok b /\ (b = true <-> exists d p, named_in path d /\ place d cmd p /\ at_path p = Some (Program true)).
Proof. exact program_found. Qed.
Print Assumptions C92_program_partial.

Example C92_program_partial_ex : exists b, cmd_exists (fun p => if String.eqb p "/opt/x" then Some (Program true) else None) [("PATH", "/bin:/opt")] "x" = Ok b /\ b = true.
Proof.
  destruct (C92_program_partial (fun p => if String.eqb p "/opt/x" then Some (Program true) else None) [("PATH", "/bin:/opt")] "x" "/bin:/opt") as (b & E & S); [|reflexivity| |exists b; split; [exact E|]].
  - intros (c & H). discriminate.
  - intros d p _ _ y. destruct (String.eqb p "/opt/x"); discriminate.
  - apply S. exists "/opt", "/opt/x". split; [|split; [|reflexivity]].
    + split; [intro H; cbn in H; decompose [or] H; try contradiction; discriminate|]. exists "/bin:", "". split; [reflexivity|]. split; [right; now exists "/bin"|now left].
    + right. right. split; [discriminate|]. split; [|reflexivity]. intro E'. apply endswith_spec in E'. discriminate E'.
Qed.

(** A directory of that name is taken for a program. *)
Theorem C92_directory_refuted : forall at_path env cmd path d p, plain cmd -> dget env "PATH" = Some path ->
  named_in path d -> place d cmd p -> at_path p = Some (Directory true) -> cmd_exists at_path env cmd = Ok true.
Proof. exact directory_taken. Qed.
Print Assumptions C92_directory_refuted.

Example C92_directory_refuted_ex : cmd_exists (fun p => if String.eqb p "/opt/pdflatex" then Some (Directory true) else None) [("PATH", "/opt:/bin")] "pdflatex" = Ok true.
Proof.
  apply (C92_directory_refuted _ _ _ "/opt:/bin" "/opt" "/opt/pdflatex"); try reflexivity.
  - intros (c & H). discriminate.
  - split; [intro H; cbn in H; decompose [or] H; try contradiction; discriminate|]. exists "", ":/bin". split; [reflexivity|]. split; [now left|right; now exists "/bin"].
  - right. right. split; [discriminate|]. split; [|reflexivity]. intro E'. apply endswith_spec in E'. discriminate E'.
Qed.

(** A command given by its place from the root is looked for there only. *)
Theorem C92_absolute : forall at_path env cmd path, dget env "PATH" = Some path -> ~ plain cmd -> cmd_exists at_path env cmd = Ok (access_x at_path cmd).
Proof. exact absolute. Qed.
Print Assumptions C92_absolute.

Example C92_absolute_ex : cmd_exists (fun p => if String.eqb p "/opt/x" then Some (Program true) else None) [("PATH", "/bin")] "/opt/x" = Ok true.
Proof. rewrite (C92_absolute _ _ _ "/bin"); [reflexivity|reflexivity|]. intro H. apply H. now exists "opt/x". Qed.

(** Without a PATH it raises KeyError. *)
Theorem C92_no_path : forall at_path env cmd, dget env "PATH" = None -> cmd_exists at_path env cmd = Err (KeyError "PATH").
Proof. exact no_path. Qed.
Print Assumptions C92_no_path.

Example C92_no_path_ex : cmd_exists (fun _ => None) [("HOME", "/root")] "x" = Err (KeyError "PATH").
Proof. apply C92_no_path. reflexivity. Qed.
