(** Proofs of C91 and C92. *)
From Coq Require Import String Ascii Arith Bool Lia List.
From Verif Require Import Py PyFacts Kwargs KwargsSpec KwargsProofs PriorTab PriorTabProofs DataDir Loading LoadingSpec.
Import ListNotations.
Open Scope string_scope.

Section Load.
  Variables (exts : list string) (compiles : string -> bool) (w : bool) (minor : nat) (path : string).
  Hypotheses (M : (5 <= minor)%nat) (SN : source_name exts path).
  Local Notation load := (load_module_from_file exts compiles w 3 minor path).
  Local Notation after h := (fold_left (act exts compiles w 3 minor path) h ([], mkDisk None None)).
  Lemma load_code d : load d = get_code compiles w d.
  Proof.
    unfold load_module_from_file. cbn [Nat.eqb andb]. apply Nat.leb_le in M. rewrite M. unfold loader_of. destruct SN as (P & N).
    assert (existsb (endswith path) exts = false) as ->.
    { destruct (existsb (endswith path) exts) eqn:E; [|reflexivity]. apply existsb_exists in E as (e & I & E). apply endswith_spec in E. destruct (N e I E). }
    apply endswith_spec in P. now rewrite P.
  Qed.
  Lemma code_source d : d_source (snd (get_code compiles w d)) = d_source d.
  Proof.
    unfold get_code. destruct (d_source d) as [s|] eqn:E; [|exact E]. cbv zeta. destruct (d_copy d) as [c|].
    - destruct (_ && _); [exact E|]. destruct (compiles (s_text s)); [|exact E]. destruct w; [reflexivity|exact E].
    - destruct (compiles (s_text s)); [|exact E]. destruct w; [reflexivity|exact E].
  Qed.
  Lemma act_command st : act exts compiles w 3 minor path st Command = ((fst st ++ [fst (get_code compiles w (snd st))])%list, snd (get_code compiles w (snd st))).
  Proof. destruct st as [outs d]. cbn [act fst snd]. rewrite load_code. now destruct (get_code compiles w d). Qed.
  Lemma commands_source post : (forall a, In a post -> a = Command) -> forall st, d_source (snd (fold_left (act exts compiles w 3 minor path) post st)) = d_source (snd st).
  Proof.
    induction post as [|a post IH]; intros H st; [reflexivity|]. cbn [fold_left]. rewrite IH by (intros; apply H; now right). rewrite (H a (or_introl eq_refl)), act_command. apply code_source.
  Qed.
  Definition honest (h : list action) (d : disk) : Prop :=
    (forall s, d_source d = Some s -> In (Edit (s_text s) (s_time s)) h) /\
    (forall c, d_copy d = Some c -> In (Edit (c_text c) (c_time c)) h /\ c_size c = String.length (c_text c) /\ compiles (c_text c) = true).
  Lemma honest_after h : honest h (snd (after h)).
  Proof.
    induction h as [|a h IH] using rev_ind; [split; discriminate|]. rewrite fold_left_app. cbn [fold_left]. destruct (after h) as [outs d]. cbn [snd] in IH.
    assert (forall x, In x h -> In x (h ++ [a])%list) as UP by (intros; apply in_or_app; now left). destruct IH as (A & B). destruct a as [s t| |].
    - split; cbn [act snd d_source d_copy].
      + intros s' E. injection E as <-. apply in_or_app. right. now left.
      + intros c E. destruct (B c E) as (B1 & B2). auto.
    - split; cbn [act snd d_source d_copy]; [discriminate|]. intros c E. destruct (B c E) as (B1 & B2). auto.
    - rewrite act_command. cbn [snd]. split.
      + intros s E. rewrite code_source in E. auto.
      + intros c E. unfold get_code in E. destruct (d_source d) as [s|] eqn:ES; [|destruct (B c E); auto]. cbv zeta in E.
        assert (snd (if compiles (s_text s) then (Executed (s_text s), if w then mkDisk (Some s) (Some (mkCopy (s_text s) (s_time s) (String.length (s_text s)))) else d) else (BadSyntax, d)) = d \/
          (compiles (s_text s) = true /\ snd (if compiles (s_text s) then (Executed (s_text s), if w then mkDisk (Some s) (Some (mkCopy (s_text s) (s_time s) (String.length (s_text s)))) else d) else (BadSyntax, d)) = mkDisk (Some s) (Some (mkCopy (s_text s) (s_time s) (String.length (s_text s)))))) as CC.
        { destruct (compiles (s_text s)); [|now left]. destruct w; [right; now split|now left]. }
        assert (d_copy d = Some c \/ (compiles (s_text s) = true /\ c = mkCopy (s_text s) (s_time s) (String.length (s_text s)))) as D.
        { destruct (d_copy d) as [c0|] eqn:EC.
          - destruct (_ && _) in E; [left; cbn [snd] in E; congruence|]. destruct CC as [CC|(C1 & CC)]; rewrite CC in E; [left; congruence|right; split; [exact C1|]]. now injection E.
          - destruct CC as [CC|(C1 & CC)]; rewrite CC in E; [left; congruence|right; split; [exact C1|]]. now injection E. }
        destruct D as [D|(D & ->)]; [destruct (B c D); auto|]. cbn. auto.
  Qed.
  Lemma command_last h : run exts compiles w 3 minor path (h ++ [Command])%list = (run exts compiles w 3 minor path h ++ [fst (get_code compiles w (snd (after h)))])%list.
  Proof. unfold run. rewrite fold_left_app. cbn [fold_left]. now rewrite act_command. Qed.
  Lemma text_answered h s : told_apart h -> holds_text h s -> run exts compiles w 3 minor path (h ++ [Command])%list = (run exts compiles w 3 minor path h ++ [answer compiles s])%list.
  Proof.
    intros T (t & pre & post & E & C). rewrite command_last. f_equal. f_equal. destruct (honest_after h) as (A & B). set (d := snd (after h)) in *.
    assert (d_source d = Some (mkSource s t)) as ES.
    { unfold d. rewrite E, fold_left_app. cbn [fold_left]. rewrite commands_source by exact C. destruct (after pre). reflexivity. }
    unfold get_code, answer. rewrite ES. cbn [s_text s_time]. assert (In (Edit s t) h) as I by (rewrite E; apply in_or_app; right; now left).
    destruct (d_copy d) as [c|] eqn:EC; [|now destruct (compiles s)]. destruct (Nat.eqb_spec (c_time c) t) as [Et|]; [|now destruct (compiles s)].
    destruct (Nat.eqb_spec (c_size c) (String.length s)) as [En|]; [|now destruct (compiles s)]. cbn [andb fst].
    destruct (B c eq_refl) as (B1 & B2 & B3). rewrite Et in B1. assert (c_text c = s) as Es by (apply (T _ t); auto; congruence). rewrite Es in *. now rewrite B3.
  Qed.
  Lemma none_answered h : holds_none h -> run exts compiles w 3 minor path (h ++ [Command])%list = (run exts compiles w 3 minor path h ++ [NotFound])%list.
  Proof.
    intro H. rewrite command_last. f_equal. f_equal. assert (d_source (snd (after h)) = None) as ES.
    { destruct H as [H|(pre & post & -> & C)]; [now rewrite commands_source by exact H|]. rewrite fold_left_app. cbn [fold_left]. rewrite commands_source by exact C. now destruct (after pre). }
    unfold get_code. now rewrite ES.
  Qed.
End Load.
Lemma holds_one h : (exists s, holds_text h s) \/ holds_none h.
Proof.
  induction h as [|a h IH] using rev_ind; [right; left; intros a []|]. destruct a as [s t| |].
  - left. exists s, t, h, []. split; [reflexivity|]. intros a [].
  - right. right. exists h, []. split; [reflexivity|]. intros a [].
  - destruct IH as [(s & t & pre & post & -> & C)|[C|(pre & post & -> & C)]].
    + left. exists s, t, pre, (post ++ [Command])%list. split; [now rewrite <- app_assoc|]. intros a I. apply in_app_or in I as [I|[<-|[]]]; auto.
    + right. left. intros a I. apply in_app_or in I as [I|[<-|[]]]; auto.
    + right. right. exists pre, (post ++ [Command])%list. split; [now rewrite <- app_assoc|]. intros a I. apply in_app_or in I as [I|[<-|[]]]; auto.
Qed.
(** edits within one second *)
Lemma edits_not_always exts compiles minor path s s' t : (5 <= minor)%nat -> source_name exts path -> compiles s = true -> s <> s' -> String.length s = String.length s' ->
  holds_text [Edit s t; Command; Edit s' t] s' /\ run exts compiles true 3 minor path [Edit s t; Command; Edit s' t; Command] = [Executed s; Executed s].
Proof.
  intros M SN C N L. split; [exists t, [Edit s t; Command], []; split; [reflexivity|intros a []]|].
  change [Edit s t; Command; Edit s' t; Command] with ([Edit s t; Command; Edit s' t] ++ [Command])%list. rewrite (command_last exts compiles true minor path M SN).
  unfold run. cbn [fold_left]. rewrite (act_command exts compiles true minor path M SN). cbn [act fst snd d_copy].
  assert (get_code compiles true (mkDisk (Some (mkSource s t)) None) = (Executed s, mkDisk (Some (mkSource s t)) (Some (mkCopy s t (String.length s))))) as -> by (unfold get_code; cbn [d_source d_copy s_text s_time]; now rewrite C).
  cbn [fst snd d_copy app]. unfold get_code. cbn [d_source d_copy s_text s_time c_time c_size]. now rewrite Nat.eqb_refl, L, Nat.eqb_refl.
Qed.
(** names without a known suffix *)
Lemma suffix_refused exts compiles w minor path d : (5 <= minor)%nat -> ~ ends_in path ".py" -> ~ ends_in path ".pyc" -> (forall e, In e exts -> ~ ends_in path e) ->
  load_module_from_file exts compiles w 3 minor path d = (NoneSpec, d).
Proof.
  intros M N1 N2 N3. unfold load_module_from_file. apply Nat.leb_le in M. cbn [Nat.eqb andb]. rewrite M. unfold loader_of.
  assert (forall e, ~ ends_in path e -> endswith path e = false) as F. { intros e N. destruct (endswith path e) eqn:E; [|reflexivity]. apply endswith_spec in E. now destruct N. }
  assert (existsb (endswith path) exts = false) as ->.
  { destruct (existsb (endswith path) exts) eqn:E; [|reflexivity]. apply existsb_exists in E as (e & I & E). rewrite (F e (N3 e I)) in E. discriminate. }
  now rewrite !F.
Qed.
Lemma later_python exts compiles w major minor path d : (4 <= major)%nat -> load_module_from_file exts compiles w major minor path d = (Unbound, d).
Proof. intro H. unfold load_module_from_file. do 4 (destruct major as [|major]; [lia|]). reflexivity. Qed.

(** ** cmd_exists *)
Lemma occurs_in c s : occurs c s <-> In c (list_ascii_of_string s).
Proof. induction s as [|a s IH]; cbn; [tauto|]. rewrite IH. tauto. Qed.
Lemma split_both sep p x : split_on sep (p ++ String sep x) = (split_on sep p ++ split_on sep x)%list.
Proof.
  induction p as [|c p IH]; cbn [append split_on]; [now rewrite Ascii.eqb_refl|]. rewrite IH. destruct (Ascii.eqb c sep); [reflexivity|].
  destruct (split_on sep p) as [|l ls] eqn:E; [destruct (split_not_nil sep p E)|reflexivity].
Qed.
Lemma piece_named l1 : forall d l2, exists pre post, String.concat ":" (l1 ++ d :: l2)%list = pre ++ d ++ post /\ (pre = "" \/ exists p, pre = p ++ ":") /\ (post = "" \/ exists p, post = ":" ++ p).
Proof.
  induction l1 as [|a l1 IH]; intros d l2.
  - exists "". destruct l2 as [|b l2]; [exists ""|exists (":" ++ String.concat ":" (b :: l2))]; (split; [cbn; now rewrite ?sapp_nil|]); split; eauto.
  - destruct (IH d l2) as (pre & post & E & P & Q). exists (a ++ ":" ++ pre), post. split; [|split; [right|exact Q]].
    + assert (String.concat ":" ((a :: l1) ++ d :: l2)%list = a ++ ":" ++ String.concat ":" (l1 ++ d :: l2)%list) as -> by (destruct l1; reflexivity). rewrite E. now rewrite !sapp_assoc.
    + destruct P as [->|(p & ->)]; [exists a; reflexivity|]. exists (a ++ ":" ++ p). now rewrite !sapp_assoc.
Qed.
Lemma split_named path d : In d (split_on ":" path) <-> named_in path d.
Proof.
  split.
  - intro I. split.
    + unfold no_colon. rewrite <- occurs_in. pose proof (split_free ":" path) as F. rewrite Forall_forall in F. now apply F.
    + apply in_split in I as (l1 & l2 & E). rewrite <- (split_concat ":" path), E. apply piece_named.
  - intros (N & pre & post & -> & P & Q). unfold no_colon in N. rewrite <- occurs_in in N.
    assert (In d (split_on ":" (d ++ post))) as I. { destruct Q as [->|(p & ->)]; [rewrite sapp_nil, split_clean by exact N; now left|]. cbn [append]. rewrite split_both. apply in_or_app. left. rewrite split_clean by exact N. now left. }
    destruct P as [->|(p & ->)]; [exact I|]. rewrite sapp_assoc. cbn [append]. rewrite split_both. apply in_or_app. now right.
Qed.
Lemma ends_slash_spec d : ends_slash d = true <-> ends_in d "/".
Proof.
  unfold ends_in. induction d as [|c d IH]; cbn [ends_slash]; [split; [discriminate|intros ([|] & E); discriminate]|].
  destruct d as [|c' d].
  - rewrite Ascii.eqb_eq. split; [intros ->; now exists ""|]. intros ([|a [|b q]] & E); cbn in E; congruence.
  - rewrite IH. split; [intros (q & ->); now exists (String c q)|]. intros ([|a q] & E); [discriminate|]. injection E as -> E. now exists q.
Qed.
Lemma place_join d cmd p : plain cmd -> place d cmd p <-> p = path_join d cmd.
Proof.
  intro PL. unfold path_join. assert (starts_slash cmd = false) as ->.
  { destruct cmd as [|c cmd]; [reflexivity|]. cbn. destruct (Ascii.eqb_spec c "/") as [->|]; [|reflexivity]. destruct PL. now exists cmd. }
  unfold place. destruct (String.eqb_spec d "") as [->|N].
  - cbn [orb append]. split; [|intros ->; now left]. intros [(_ & ->)|[(([|] & E) & _)|(N & _)]]; [reflexivity|discriminate|discriminate|now destruct N].
  - cbn [orb]. destruct (ends_slash d) eqn:E.
    + apply ends_slash_spec in E. split; [|intros ->; right; left; now split]. intros [(-> & _)|[(_ & H)|(_ & H & _)]]; [now destruct N|exact H|now destruct H].
    + assert (~ ends_in d "/") as NE by (rewrite <- ends_slash_spec; congruence). split; [|intros ->; right; right; auto]. intros [(-> & _)|[(H & _)|(_ & _ & H)]]; [now destruct N|now destruct NE|exact H].
Qed.
Lemma exists_spec at_path env cmd path : plain cmd -> dget env "PATH" = Some path -> exists b, cmd_exists at_path env cmd = Ok b /\
  (b = true <-> exists d p, named_in path d /\ place d cmd p /\ (at_path p = Some (Program true) \/ at_path p = Some (Directory true))).
Proof.
  intros PL E. unfold cmd_exists, dget_res. rewrite E. cbn [bind]. eexists. split; [reflexivity|]. rewrite existsb_exists. split.
  - intros (d & I & A). exists d, (path_join d cmd). split; [now apply split_named|]. split; [now apply place_join|]. unfold access_x in A. destruct (at_path _) as [[x|x]|]; [left|right|discriminate]; now rewrite A.
  - intros (d & p & N & P & A). exists d. split; [now apply split_named|]. apply place_join in P; [|exact PL]. rewrite <- P. unfold access_x. now destruct A as [-> | ->].
Qed.
Lemma program_found at_path env cmd path : plain cmd -> dget env "PATH" = Some path ->
  (forall d p, named_in path d -> place d cmd p -> forall x, at_path p <> Some (Directory x)) ->
  exists b, cmd_exists at_path env cmd = Ok b /\ (b = true <-> exists d p, named_in path d /\ place d cmd p /\ at_path p = Some (Program true)).
Proof.
  intros PL E ND. destruct (exists_spec at_path env cmd path PL E) as (b & B & S). exists b. split; [exact B|]. rewrite S. split.
  - intros (d & p & N & P & [A|A]); [eauto|]. destruct (ND d p N P _ A).
  - intros (d & p & N & P & A). eauto 6.
Qed.
Lemma directory_taken at_path env cmd path d p : plain cmd -> dget env "PATH" = Some path -> named_in path d -> place d cmd p -> at_path p = Some (Directory true) ->
  cmd_exists at_path env cmd = Ok true.
Proof. intros PL E N P A. destruct (exists_spec at_path env cmd path PL E) as (b & B & S). rewrite B. f_equal. apply S. eauto 6. Qed.
Lemma no_path at_path env cmd : dget env "PATH" = None -> cmd_exists at_path env cmd = Err (KeyError "PATH").
Proof. intro E. unfold cmd_exists, dget_res. now rewrite E. Qed.
(** an absolute command is looked up as it is *)
Lemma absolute at_path env cmd path : dget env "PATH" = Some path -> ~ plain cmd -> cmd_exists at_path env cmd = Ok (access_x at_path cmd).
Proof.
  intros E NP. unfold cmd_exists, dget_res. rewrite E. cbn [bind]. assert (starts_slash cmd = true) as SS.
  { destruct cmd as [|c cmd]; [exfalso; apply NP; intros (c & H); discriminate|]. cbn. destruct (Ascii.eqb_spec c "/"); [reflexivity|]. exfalso. apply NP. intros (c' & H). cbn in H. congruence. }
  assert (forall l, l <> [] -> existsb (fun d => access_x at_path (path_join d cmd)) l = access_x at_path cmd) as A; [|now rewrite A by apply split_not_nil].
  intros l N. unfold path_join. rewrite SS. induction l as [|a [|b l] IH]; [congruence|cbn; apply orb_false_r|]. cbn [existsb] in *. rewrite IH by discriminate. apply orb_diag.
Qed.
