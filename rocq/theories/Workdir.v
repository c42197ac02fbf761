(** working_directory, radvel/utils.py:385-403, and its property (small enough to be in one file). *)
From Coq Require Import String Bool List.
From Verif Require Import Py.
Import ListNotations.
Open Scope string_scope.

(** the process's current directory and the directories that exist *)
Record world := mkWorld { w_cwd : string; w_dirs : string -> bool }.

Definition getcwd (w : world) : res string := if w_dirs w (w_cwd w) then Ok (w_cwd w) else Err FileNotFoundError.
(** os.chdir: a path that does not start with "/" is relative to the current directory
    (links, "." and ".." are not modelled) *)
Definition resolve (w : world) (d : string) : string := if String.prefix "/" d then d else w_cwd w ++ "/" ++ d.
Definition chdir (w : world) (d : string) : world * res unit :=
  let p := resolve w d in if w_dirs w p then (mkWorld p (w_dirs w), Ok tt) else (w, Err FileNotFoundError).

(** with working_directory(dir): block.  The block may do anything to the world. *)
Definition with_dir {A} (dir : string) (block : world -> world * res A) (w : world) : world * res A :=
  match getcwd w with
  | Err e => (w, Err e)
  | Ok cwd =>
      match chdir w dir with
      | (w1, Err e) => (w1, Err e)
      | (w1, Ok _) =>
          let '(w2, r) := block w1 in
          match chdir w2 cwd with
          | (w3, Ok _) => (w3, r)
          | (w3, Err e) => (w3, Err e)
          end
      end
  end.
Fixpoint with_dirs {A} (dirs : list string) (block : world -> world * res A) : world -> world * res A :=
  match dirs with [] => block | d :: r => with_dir d (with_dirs r block) end.

(** ** Proofs *)
Definition absolute (p : string) : Prop := String.prefix "/" p = true.
(** a block that removes no directory *)
Definition keeps {A} (block : world -> world * res A) : Prop :=
  forall w p, w_dirs w p = true -> w_dirs (fst (block w)) p = true.

Lemma prefix_append a b c : String.prefix a b = true -> String.prefix a (b ++ c) = true.
Proof.
  revert b. induction a as [|x a IH]; intros [|y b] H; cbn in *; auto; try discriminate.
  - now destruct c.
  - destruct (Ascii.ascii_dec x y); [auto|discriminate].
Qed.
Lemma resolve_absolute w d : absolute (w_cwd w) -> absolute (resolve w d).
Proof.
  unfold resolve, absolute. destruct (String.prefix "/" d) eqn:E; auto. intro H. now apply prefix_append.
Qed.

Lemma with_dir_restores {A} dir (block : world -> world * res A) w : absolute (w_cwd w) -> 
  let '(w', r) := with_dir dir block w in
  (w_dirs w (w_cwd w) = true -> (forall w1, w_dirs w1 = w_dirs w -> w_dirs (fst (block w1)) (w_cwd w) = true) -> w_cwd w' = w_cwd w) /\
  (w_dirs w (w_cwd w) = true -> w_dirs w (resolve w dir) = true ->
     let '(w2, r2) := block (mkWorld (resolve w dir) (w_dirs w)) in
     w_dirs w2 (w_cwd w) = true -> r = r2 /\ w_dirs w' = w_dirs w2) /\
  (w_dirs w (w_cwd w) = false \/ w_dirs w (resolve w dir) = false -> w' = w /\ r = Err FileNotFoundError).
Proof.
  intro HA. unfold with_dir, getcwd. destruct (w_dirs w (w_cwd w)) eqn:E1.
  2:{ split; [discriminate|]. split; [discriminate|]. auto. }
  unfold chdir at 1. destruct (w_dirs w (resolve w dir)) eqn:E2.
  2:{ split; auto. split; [discriminate|]. auto. }
  set (w1 := mkWorld (resolve w dir) (w_dirs w)). destruct (block w1) as [w2 r2] eqn:Eb.
  assert (resolve w2 (w_cwd w) = w_cwd w) as Er by (unfold resolve; unfold absolute in HA; now rewrite HA).
  unfold chdir. rewrite Er.
  destruct (w_dirs w2 (w_cwd w)) eqn:E3; cbn [w_cwd w_dirs].
  - split; auto. split; [auto|]. intros [H|H]; discriminate.
  - split.
    + intros _ K. specialize (K w1 eq_refl). rewrite Eb in K. cbn in K. congruence.
    + split; [intros _ _ H; congruence|]. intros [H|H]; discriminate.
Qed.

(** any nesting of blocks that remove no directory, whether or not they raise *)
Lemma with_dirs_keeps {A} dirs (block : world -> world * res A) : keeps block -> keeps (with_dirs dirs block).
Proof.
  intro K. induction dirs as [|d dirs IH]; cbn [with_dirs]; auto. intros w p Hp. unfold with_dir.
  destruct (getcwd w) as [cwd|e]; [|exact Hp]. unfold chdir at 1. destruct (w_dirs w (resolve w d)); [|exact Hp].
  set (w1 := mkWorld _ _). specialize (IH w1 p Hp). destruct (with_dirs dirs block w1) as [w2 r2]. cbn [fst] in IH.
  unfold chdir. destruct (w_dirs w2 (resolve w2 cwd)); exact IH.
Qed.
Lemma nested_restores {A} dirs (block : world -> world * res A) w : dirs <> [] -> keeps block -> absolute (w_cwd w) ->
  w_cwd (fst (with_dirs dirs block w)) = w_cwd w.
Proof.
  intros N K HA. destruct dirs as [|d dirs]; [easy|]. cbn [with_dirs].
  pose proof (with_dir_restores d (with_dirs dirs block) w HA) as H. destruct (with_dir d (with_dirs dirs block) w) as [w' r].
  destruct H as (H1 & _ & H3). cbn [fst]. destruct (w_dirs w (w_cwd w)) eqn:E.
  - apply H1; auto. intros w1 E1. apply with_dirs_keeps; auto. now rewrite E1.
  - destruct H3 as [-> _]; auto.
Qed.

(** the original directory removed inside the block: neither the directory nor the result survives *)
Lemma not_restored : exists (w : world) (block : world -> world * res nat),
  absolute (w_cwd w) /\ w_dirs w (w_cwd w) = true /\
  with_dir "/tmp" block w = (mkWorld "/tmp" (fun p => String.eqb p "/tmp"), Err FileNotFoundError) /\
  snd (block (mkWorld "/tmp" (w_dirs w))) = Ok 1%nat.
Proof.
  exists (mkWorld "/home" (fun p => String.eqb p "/tmp" || String.eqb p "/home")%bool).
  exists (fun w => (mkWorld (w_cwd w) (fun p => String.eqb p "/tmp"), Ok 1)). repeat split.
Qed.
