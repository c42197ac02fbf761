(** Proofs about the search for the example data. *)
From Coq Require Import String Ascii Bool List.
From Verif Require Import Py DataDir DataDirSpec.
Import ListNotations.
Open Scope string_scope.

Lemma app_ne_r a b : b <> "" -> a ++ b <> "".
Proof. destruct a; [auto|discriminate]. Qed.
Lemma ends_spec p : ends_slash p = true -> exists a, p = a ++ "/".
Proof.
  induction p as [|c [|d r] IH]; [discriminate| |].
  - cbn. intro E. apply Ascii.eqb_eq in E as ->. now exists "".
  - intro E. destruct (IH E) as (a & ->). now exists (String c a).
Qed.
Lemma plain_ends d : plain d -> ends_slash d = false.
Proof. intros [_ P]. destruct (ends_slash d) eqn:E; [|reflexivity]. destruct (ends_spec d E) as (a & ->). now destruct (P a). Qed.
Lemma join_plain d n : plain d -> starts_slash n = false -> path_join d n = inside d n.
Proof. intros P S. unfold path_join. rewrite S, (plain_ends d P). destruct P as [N _]. apply String.eqb_neq in N. now rewrite N. Qed.
Lemma upto_name n : one_name n -> upto_slash n = "".
Proof.
  induction n as [|c r IH]; [reflexivity|]. intro O. cbn. rewrite IH.
  - destruct (Ascii.eqb_spec c "/"); [|reflexivity]. subst. now destruct (O "" r).
  - intros a b ->. now destruct (O (String c a) b).
Qed.
Lemma upto_inside d n : one_name n -> upto_slash (inside d n) = d ++ "/".
Proof.
  intro O. unfold inside. induction d as [|c d IH].
  - cbn. now rewrite upto_name.
  - cbn [append] in *. cbn [upto_slash]. rewrite IH. destruct (d ++ "/") eqn:E; [|reflexivity]. now destruct (app_ne_r d "/").
Qed.
Lemma unslash_slash d : unslash (d ++ "/") = unslash d.
Proof. induction d as [|c d IH]; [reflexivity|]. cbn. now rewrite IH. Qed.
Lemma unslash_plain d : plain d -> unslash d = d.
Proof.
  induction d as [|c d IH]; [now intros []|]. intros [_ P]. cbn. destruct d as [|x y].
  - cbn. destruct (Ascii.eqb_spec c "/"); [subst; now destruct (P "")|reflexivity].
  - rewrite IH; [reflexivity|]. split; [discriminate|]. intros a E. apply (P (String c a)). cbn. now rewrite E.
Qed.
Lemma dirname_inside d n : plain d -> one_name n -> dirname (inside d n) = d.
Proof.
  intros P O. unfold dirname. rewrite (upto_inside d n O), unslash_slash, (unslash_plain d P). destruct P as [N _]. now destruct d.
Qed.
Lemma app_ass a b c : (a ++ b) ++ c = a ++ b ++ c.
Proof. induction a as [|x a IH]; [reflexivity|]. cbn. now rewrite IH. Qed.
Lemma last_app a b x y : a ++ String x "" = b ++ String y "" -> x = y.
Proof.
  revert b. induction a as [|c a IH]; intros [|d b]; cbn; intro E; injection E; auto.
  - destruct b; discriminate.
  - destruct a; discriminate.
  - intros E2 _. exact (IH b E2).
Qed.
Lemma last_of n : n <> "" -> exists a c, n = a ++ String c "".
Proof.
  induction n as [|c r IH]; [now intros []|]. intros _. destruct r as [|x y].
  - now exists "", c.
  - destruct IH as (a & z & ->); [discriminate|]. now exists (String c a), z.
Qed.
Lemma plain_inside d n : n <> "" -> one_name n -> plain (inside d n).
Proof.
  intros N O. split; [now apply app_ne_r; destruct n|]. intros a E.
  destruct (last_of n N) as (b & c & ->). unfold inside in E. rewrite <- !app_ass in E. apply last_app in E. subst c.
  apply (O b ""). reflexivity.
Qed.
Lemma name_radvel : one_name "radvel" /\ one_name "__init__.py".
Proof. split; intros a b E; repeat (destruct a as [|? a]; [discriminate|cbn in E; first [discriminate E | injection E as _ E]]). Qed.
Lemma first_found_some isdir l d : first_dir isdir l d -> first_found isdir l = Some d.
Proof.
  intros (a & b & -> & D & A). induction a as [|x a IH]; cbn; [now rewrite D|].
  rewrite (A x) by now left. apply IH. intros y Y. apply A. now right.
Qed.
Lemma first_found_none isdir l : no_dir isdir l -> first_found isdir l = None.
Proof. induction l as [|x l IH]; [reflexivity|]. intro N. cbn. rewrite (N x) by now left. apply IH. intros y Y. apply N. now right. Qed.

(** the directory named by the user *)
Theorem named isdir cwd file prefix env d : dget env "RADVEL_DATADIR" = Some d -> d <> "" -> isdir d = true ->
  datadir isdir cwd file prefix env = Ok (d, []).
Proof. intros E N D. unfold datadir, local_dir. apply String.eqb_neq in N. now rewrite E, N, D. Qed.

Section Tree.
  Variables (isdir : string -> bool) (up tree w prefix : string) (env : dict string).
  Hypotheses (PU : plain up) (NT : tree <> "") (OT : one_name tree) (PW : plain w) (PP : plain prefix) (U : not_named isdir env).
  Let three := [inside up "example_data"; inside w "example_data"; inside (inside up tree) "example_data"].
  Let installed := inside prefix "radvel_example_data".
  Lemma local : local_dir isdir (Ok w) (init_of up tree) env = Ok (first_found isdir three).
  Proof.
    assert (possible_dirs (Ok w) (init_of up tree) = Ok three) as E.
    { unfold possible_dirs, moduledir, init_of. cbn [bind]. destruct name_radvel.
      rewrite (dirname_inside _ "__init__.py"), (dirname_inside _ "radvel"), (dirname_inside up tree) by (try apply plain_inside; auto; discriminate).
      rewrite !join_plain by (try apply plain_inside; auto; discriminate). reflexivity. }
    unfold local_dir. rewrite E. cbn [bind]. destruct (dget env "RADVEL_DATADIR") as [d|] eqn:D; [|reflexivity].
    destruct (U d D) as [->|F]; [reflexivity|]. rewrite F, andb_false_r. reflexivity.
  Qed.
  Lemma split_first a d b l1 l2 : (l1 ++ l2)%list = (a ++ d :: b)%list -> isdir d = true -> (forall x, In x a -> isdir x = false) ->
    (first_dir isdir l1 d) \/ (no_dir isdir l1 /\ first_dir isdir l2 d).
  Proof.
    revert a. induction l1 as [|x l1 IH]; intros a E D A.
    - right. split; [intros y []|]. cbn in E. subst. now exists a, b.
    - destruct a as [|y a]; cbn in E; injection E as -> E.
      + left. exists [], l1. split; [reflexivity|]. split; [exact D|intros y []].
      + destruct (IH a E D) as [(a' & b' & -> & _ & A')|[N F]]; [intros z Z; apply A; now right| |].
        * left. exists (y :: a')%list, b'. split; [reflexivity|]. split; [exact D|]. intros z [->|Z]; [apply A; now left|auto].
        * right. split; [|exact F]. intros z [->|Z]; [apply A; now left|auto].
  Qed.
  (** the first four *)
  Theorem found d : first_dir isdir (three ++ [installed])%list d -> datadir isdir (Ok w) (init_of up tree) prefix env = Ok (d, []).
  Proof.
    intros (a & b & E & D & A). unfold datadir. rewrite local. cbn [bind].
    destruct (split_first a d b three [installed] E D A) as [F|[N F]].
    - now rewrite (first_found_some _ _ _ F).
    - rewrite (first_found_none _ _ N), join_plain by (auto; reflexivity).
      destruct F as ([|x [|]] & ? & F & _ & _); cbn in F; injection F; intros; subst; try discriminate. unfold installed in D. now rewrite D.
  Qed.
  Theorem home h : no_dir isdir (three ++ [installed])%list -> dget env "HOME" = Some h -> plain h ->
    let there := inside (inside h ".local") "radvel_example_data" in
    let w1 := "Could not find radvel_example_data directory in " ++ prefix in
    (isdir there = true -> datadir isdir (Ok w) (init_of up tree) prefix env = Ok (there, [w1; "Found radvel_example_data in ~/.local"])) /\
    (isdir there = false -> datadir isdir (Ok w) (init_of up tree) prefix env =
       Ok (installed, [w1; "Failed to locate radvel_example_data directory. Example setup files will not work."])).
  Proof.
    intros N H PH. cbv zeta. unfold datadir. rewrite local. cbn [bind].
    rewrite (first_found_none isdir three) by (intros x X; apply N; apply in_or_app; now left).
    unfold dget_res. rewrite H. cbn [bind].
    rewrite (join_plain prefix), (join_plain h), (join_plain (inside h ".local")); auto.
    2: { apply plain_inside; [discriminate|]. intros a b E; repeat (destruct a as [|? a]; [discriminate|cbn in E; first [discriminate E | injection E as _ E]]). }
    fold installed. rewrite (N installed) by (apply in_or_app; right; now left).
    split; intro D; now rewrite D.
  Qed.
  Theorem no_home : no_dir isdir (three ++ [installed])%list -> dget env "HOME" = None ->
    datadir isdir (Ok w) (init_of up tree) prefix env = Err (KeyError "HOME").
  Proof.
    intros N H. unfold datadir. rewrite local. cbn [bind].
    rewrite (first_found_none isdir three) by (intros x X; apply N; apply in_or_app; now left).
    rewrite (join_plain prefix) by auto. fold installed. rewrite (N installed) by (apply in_or_app; right; now left).
    unfold dget_res. now rewrite H.
  Qed.
  (** the data of the tree itself *)
  Theorem own : isdir (inside (inside up tree) "example_data") = true -> isdir (inside up "example_data") = false ->
    w = inside up tree \/ isdir (inside w "example_data") = false ->
    datadir isdir (Ok w) (init_of up tree) prefix env = Ok (inside (inside up tree) "example_data", []).
  Proof.
    intros D A B. unfold datadir. rewrite local. cbn [bind first_found three]. rewrite A.
    destruct B as [->|B]; [now rewrite D|]. rewrite B, D. reflexivity.
  Qed.
End Tree.

(** A tree beside another directory of that name. *)
Definition xdisk (d : string) : bool := existsb (String.eqb d) ["/home/u/src/example_data"; "/home/u/src/radvel/example_data"; "/tmp/example_data"].
Theorem own_not_always : exists isdir up tree w prefix env, plain up /\ one_name tree /\ tree <> "" /\ plain w /\ plain prefix /\ not_named isdir env /\
  isdir (inside (inside up tree) "example_data") = true /\ w = inside up tree /\
  datadir isdir (Ok w) (init_of up tree) prefix env = Ok (inside up "example_data", []).
Proof.
  exists xdisk, "/home/u/src", "radvel", "/home/u/src/radvel", "/usr", []. repeat split; try discriminate; try reflexivity;
    try (intros a E; repeat (destruct a as [|? a]; [discriminate|cbn in E; first [discriminate E | injection E as _ E]])).
  apply name_radvel.
Qed.
Theorem own_not_elsewhere : exists isdir up tree w prefix env, plain up /\ one_name tree /\ tree <> "" /\ plain w /\ plain prefix /\ not_named isdir env /\
  isdir (inside (inside up tree) "example_data") = true /\ isdir (inside up "example_data") = false /\
  datadir isdir (Ok w) (init_of up tree) prefix env = Ok (inside w "example_data", []).
Proof.
  exists (fun d => xdisk d && negb (String.eqb d "/home/u/src/example_data")), "/home/u/src", "radvel", "/tmp", "/usr", []. repeat split; try discriminate; try reflexivity;
    try (intros a E; repeat (destruct a as [|? a]; [discriminate|cbn in E; first [discriminate E | injection E as _ E]])).
  apply name_radvel.
Qed.
Theorem gone isdir e file prefix env : not_named isdir env -> datadir isdir (Err e) file prefix env = Err e.
Proof.
  intro U. unfold datadir, local_dir, possible_dirs. cbn [bind]. destruct (dget env "RADVEL_DATADIR") as [d|] eqn:D; [|reflexivity].
  destruct (U d D) as [->|F]; [reflexivity|]. rewrite F, andb_false_r. reflexivity.
Qed.
Ltac cut_all a E := repeat (destruct a as [|? a]; [discriminate|cbn in E; first [discriminate E | injection E as _ E]]).
Ltac no_such := first [ solve [let a := fresh in let E := fresh in intros a E; cut_all a E] | solve [let a := fresh in let E := fresh in intros a ? E; cut_all a E] ].
Theorem import_not_always : exists isdir up tree w prefix env, plain up /\ one_name tree /\ tree <> "" /\ plain w /\ plain prefix /\ not_named isdir env /\
  datadir isdir (Ok w) (init_of up tree) prefix env = Err (KeyError "HOME").
Proof.
  exists (fun _ => false), "/usr/lib/python3", "site-packages", "/srv", "/usr", [("PATH", "/bin")]. repeat split; try discriminate; try reflexivity;
    try no_such.
Qed.
(** installed for one user *)
Definition xhome : dict string := [("HOME", "/home/u"); ("RADVEL_DATADIR", "/nowhere")].
Definition xlocal (d : string) : bool := String.eqb d "/home/u/.local/radvel_example_data".
Lemma xplain : plain "/usr/lib/python3" /\ plain "/srv" /\ plain "/usr" /\ plain "/home/u" /\ plain "/home/u/src" /\ one_name "site-packages".
Proof.
  repeat split; try discriminate; try no_such.
Qed.
Lemma xnamed : not_named xlocal xhome.
Proof. intros d E. injection E as <-. now right. Qed.
Lemma xno_dir : no_dir xlocal ([inside "/usr/lib/python3" "example_data"; inside "/srv" "example_data"; inside (inside "/usr/lib/python3" "site-packages") "example_data"] ++ [inside "/usr" "radvel_example_data"])%list.
Proof. intros x [<-|[<-|[<-|[<-|[]]]]]; reflexivity. Qed.
