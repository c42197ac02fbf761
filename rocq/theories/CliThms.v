(** The theorems on the command line (C84). *)
From Coq Require Import Reals String Ascii ZArith Bool List Permutation Lia.
From Verif Require Import Py PyFacts Params Basis Pipeline ReportFile ReportFileSpec ReportFileProofs Cli CliSpec CliProofs.
Import ListNotations.
Open Scope string_scope.

Lemma before_dot_no s : ~ In "."%char (list_ascii_of_string (before_dot s)).
Proof. induction s as [|c s IH]; [intros []|]. cbn [before_dot]. destruct (Ascii.eqb_spec c "."); [intros []|]. cbn [list_ascii_of_string]. intros [E|H]; [now subst|auto]. Qed.
Lemma before_dot_split s : s = before_dot s \/ exists r, s = before_dot s ++ "." ++ r.
Proof.
  induction s as [|c s IH]; [now left|]. cbn [before_dot]. destruct (Ascii.eqb_spec c ".") as [->|]; [right; exists s; reflexivity|].
  destruct IH as [E|(r & E)]; [left; now rewrite <- E|right; exists r; cbn [append]; now rewrite E at 1].
Qed.
Lemma stem_of f : stem f (before_dot (basename f)).
Proof. destruct (names_basename f) as (d & N). exists d, (basename f). split; [exact N|split; [apply before_dot_no|apply before_dot_split]]. Qed.
Lemma before_dot_id s : ~ In "."%char (list_ascii_of_string s) -> before_dot s = s.
Proof. induction s as [|c s IH]; intro N; [reflexivity|]. cbn [before_dot]. cbn [list_ascii_of_string] in N. destruct (Ascii.eqb_spec c ".") as [->|]; [destruct N; now left|]. rewrite IH; [reflexivity|]. intro; apply N; now right. Qed.
Lemma stem_is f s : stem f s -> s = before_dot (basename f).
Proof.
  intros (d & g & N & D & G). rewrite (basename_names _ _ _ N). destruct G as [->|(r & ->)]; [now rewrite before_dot_id|]. symmetry. now apply before_dot_app.
Qed.
Lemma stem_slash f s : stem f s -> has_slash s = false.
Proof.
  intros (d & g & [N _] & D & G). apply slash_out in N. destruct G as [->|(r & ->)]; [exact N|]. rewrite slash_app in N. now apply orb_false_iff in N as [N _].
Qed.

Lemma isdir_there fs p : isdir fs p = true <-> there fs p.
Proof.
  unfold isdir, there. destruct (String.eqb_spec p ""); [split; [discriminate|intros [N _]; contradiction]|].
  destruct (String.eqb_spec (norm p) "") as [E|N]; [split; auto|]. split.
  - intro H. split; [auto|]. right. destruct (dget fs (norm p)); [now subst|discriminate].
  - intros [_ [E|E]]; [contradiction|now rewrite E].
Qed.
Lemma mkdir_spec fs p : isdir fs p = false ->
  match mkdir fs p with
  | Ok fs' => there fs' p /\ (forall q, q <> norm p -> dget fs' q = dget fs q)
  | Err e => e = FileExistsError /\ dget fs (norm p) = Some false \/ e = FileNotFoundError
  end.
Proof.
  unfold isdir, mkdir. destruct (String.eqb_spec p ""); [now right|]. destruct (String.eqb_spec (norm p) "") as [|N]; [discriminate|].
  intro H. destruct (dmem fs (norm p)) eqn:M.
  - left. split; [reflexivity|]. unfold dmem in M. destruct (dget fs (norm p)); [now subst|discriminate].
  - destruct (_ || _); [|now right]. split; [split; [assumption|right; apply dget_dset_same]|]. intros q Q. apply dget_dset_other. congruence.
Qed.

Section Lines.
  Variables (O : Type) (empty : O) (to_int : string -> option Z) (to_float : string -> option ext) (to_obj : string -> res O).
  Notation value := (value O).
  Notation main := (main O empty to_int to_float to_obj).
  Notation says := (says O to_int to_float to_obj).
  Notation final := (final O empty).
  Notation entered := (entered O).
  Notation words := (words O to_int to_float to_obj).
  Notation close := (close O to_int to_float to_obj).
  Notation parse_sub := (parse_sub O empty to_int to_float to_obj).
  Notation parse_main := (parse_main O empty to_int to_float to_obj).
  Notation possible := (possible O empty to_int to_float to_obj).

  Definition go (fs : dict bool) (c : command) (ns : dict value) : dict bool * outcome O :=
    match outdir O ns with
    | Err e => (fs, Ended (Raised e))
    | Ok d =>
        let ns := dset ns "outputdir" (VStr d) in
        if isdir fs d then (fs, Called c ns)
        else match mkdir fs d with
             | Ok fs => (fs, Called c ns)
             | Err e => (fs, Ended (Raised e))
             end
    end.
  Lemma main_says fs c blocks ss : says c blocks ss -> main fs (called_by c :: concat blocks) = go fs c (entered ss (defaults O empty c)).
  Proof.
    intro S. unfold Cli.main. rewrite command_parse, (line_parse _ _ _ _ _ _ _ _ S). reflexivity.
  Qed.
  Lemma both c blocks ss d : says c blocks ss -> d = "outputdir" \/ d = "setupfn" -> exists v, final c ss d v /\ dget (entered ss (defaults O empty c)) d = Some v /\ (v = VNone \/ exists s, v = VStr s).
  Proof.
    intros S D. destruct (final_ex O empty c ss d VNone) as (v & F); [destruct D as [-> | ->]; destruct c; reflexivity|].
    exists v. split; [exact F|split; [exact (entered_final _ _ _ _ _ _ F)|]]. exact (text_or_none _ _ _ _ _ _ _ _ D (final_kind _ _ _ _ _ _ _ _ _ _ S F)).
  Qed.
  Lemma outdir_spec c blocks ss : says c blocks ss ->
    match outdir O (entered ss (defaults O empty c)) with
    | Ok d => place O empty c ss d
    | Err e => e = TypeError /\ final c ss "outputdir" VNone /\ final c ss "setupfn" VNone
    end.
  Proof.
    intro S. destruct (both _ _ _ "outputdir" S) as (v & F & E & K); [auto|]. destruct (both _ _ _ "setupfn" S) as (w & G & E2 & K2); [auto|].
    unfold outdir. rewrite E. destruct K as [->|(d & ->)]; [|now left]. rewrite E2. destruct K2 as [->|(f & ->)]; [auto|].
    right. split; [exact F|]. exists f, (before_dot (basename f)). split; [exact G|split; [apply stem_of|reflexivity]].
  Qed.
  Theorem given fs c blocks ss : says c blocks ss -> comes_to O empty c ss fs (main fs (called_by c :: concat blocks)).
  Proof.
    intro S. rewrite (main_says _ _ _ _ S). unfold go. pose proof (outdir_spec _ _ _ S) as P. destruct (outdir O _) as [d|e].
    - assert (V : forall fs', comes_to O empty c ss fs (fs', Called c (dset (entered ss (defaults O empty c)) "outputdir" (VStr d))) <->
                  (there fs' d /\ (there fs d -> fs' = fs) /\ (forall p, p <> norm d -> dget fs' p = dget fs p)) \/ comes_to O empty c ss fs (fs', Called c (dset (entered ss (defaults O empty c)) "outputdir" (VStr d)))).
      { intro fs'. split; [auto|]. intros [(T & X & Y)|H]; [|exact H]. split; [reflexivity|split].
        - intros k v N F. rewrite dget_dset_other by congruence. exact (entered_final _ _ _ _ _ _ F).
        - exists d. split; [exact P|split; [apply dget_dset_same|auto]]. }
      cbn zeta. destruct (isdir fs d) eqn:D.
      + apply V. left. split; [now apply isdir_there|auto].
      + pose proof (mkdir_spec _ _ D) as M. assert (~ there fs d) as N by (intro T; apply isdir_there in T; congruence). destruct (mkdir fs d) as [fs'|e].
        * apply V. left. destruct M as [T U]. split; [exact T|split; [intro; contradiction|exact U]].
        * split; [reflexivity|]. right. exists d. auto.
    - destruct P as (-> & P). split; [reflexivity|]. left. auto.
  Qed.

  (** what holds of every line *)
  Theorem made fs argv : match main fs argv with
    | (fs', Called _ ns) => exists d, dget ns "outputdir" = Some (VStr d) /\ there fs' d /\ (there fs d -> fs' = fs) /\ (forall p, p <> norm d -> dget fs' p = dget fs p)
    | (fs', Ended _) => fs' = fs
    end.
  Proof.
    unfold Cli.main. destruct (parse_main argv false) as [[[c ns]|]|x]; [|reflexivity|reflexivity]. destruct (outdir O ns) as [d|e]; [|reflexivity]. cbn zeta. destruct (isdir fs d) eqn:D.
    - exists d. split; [apply dget_dset_same|]. apply isdir_there in D. auto.
    - pose proof (mkdir_spec _ _ D) as M. assert (~ there fs d) as N by (intro T; apply isdir_there in T; congruence). destruct (mkdir fs d) as [fs'|e]; [|reflexivity].
      destruct M as [T U]. exists d. split; [apply dget_dset_same|]. split; [exact T|split; [intro; contradiction|exact U]].
  Qed.

  (** the order of options *)
  Definition alike (x y : dict bool * outcome O) : Prop :=
    fst x = fst y /\
    match snd x, snd y with
    | Ended s, Ended t => s = t
    | Called c ns, Called c' ns' => c = c' /\ forall d, dget ns d = dget ns' d
    | _, _ => False
    end.
  Lemma nodup_final c ss d v : NoDup (map fst ss) -> In (d, v) ss -> final c ss d v.
  Proof.
    intros N I. left. apply in_split in I as (a & b & ->). exists a, b. split; [reflexivity|]. rewrite map_app in N. cbn in N. apply NoDup_remove_2 in N. intro H. apply N. apply in_or_app. now right.
  Qed.
  Lemma entered_perm c ss ss' d : Permutation ss ss' -> NoDup (map fst ss) -> dget (entered ss (defaults O empty c)) d = dget (entered ss' (defaults O empty c)) d.
  Proof.
    intros P N. assert (NoDup (map fst ss')) as N' by (eapply Permutation_NoDup; [apply Permutation_map; exact P|exact N]).
    destruct (in_dec string_dec d (map fst ss)) as [I|I].
    - apply in_map_iff in I as ([k v] & <- & I). cbn [fst]. rewrite (entered_final O empty c ss k v), (entered_final O empty c ss' k v); [reflexivity| |]; apply nodup_final; auto. now apply (Permutation_in _ P).
    - rewrite !entered_other; [reflexivity| |exact I]. intro H. apply I. apply (Permutation_in _ (Permutation_sym (Permutation_map fst P)) H).
  Qed.
  Lemma go_alike fs c ns ns' : (forall d, dget ns d = dget ns' d) -> alike (go fs c ns) (go fs c ns').
  Proof.
    intro E. unfold go. assert (outdir O ns = outdir O ns') as -> by (unfold outdir; now rewrite !E). destruct (outdir O ns') as [d|e]; [|split; reflexivity]. cbn zeta.
    assert (forall k, dget (dset ns "outputdir" (VStr d)) k = dget (dset ns' "outputdir" (VStr d)) k) as H.
    { intro k. destruct (string_dec k "outputdir") as [->|N]; [now rewrite !dget_dset_same|]. rewrite !dget_dset_other by congruence. apply E. }
    destruct (isdir fs d); [split; [reflexivity|split; [reflexivity|exact H]]|]. destruct (mkdir fs d); [split; [reflexivity|split; [reflexivity|exact H]]|split; reflexivity].
  Qed.
  Theorem order fs c b1 b2 s1 s2 : says c b1 s1 -> says c b2 s2 -> Permutation s1 s2 -> NoDup (map fst s1) ->
    alike (main fs (called_by c :: concat b1)) (main fs (called_by c :: concat b2)).
  Proof. intros S1 S2 P N. rewrite (main_says _ _ _ _ S1), (main_says _ _ _ _ S2). apply go_alike. intro d. now apply entered_perm. Qed.

  (** the status file *)
  Lemma final_unique c ss d v w : final c ss d v -> final c ss d w -> v = w.
  Proof. intros F G. apply entered_final in F, G. congruence. Qed.
  Theorem status_stem fs fs' c blocks ss ns f s : says c blocks ss -> final c ss "setupfn" (VStr f) -> final c ss "outputdir" VNone -> stem f s -> s <> "" ->
    main fs (called_by c :: concat blocks) = (fs', Called c ns) -> status_file O ns = Ok ("./" ++ s ++ "/" ++ s ++ "_radvel.stat").
  Proof.
    intros S F D ST N. rewrite (main_says _ _ _ _ S). unfold go. unfold outdir. rewrite (entered_final _ _ _ _ _ _ D), (entered_final _ _ _ _ _ _ F). cbn zeta.
    rewrite <- (stem_is _ _ ST). intro E.
    assert (ns = dset (entered ss (defaults O empty c)) "outputdir" (VStr ("./" ++ s))) as ->.
    { destruct (isdir fs _); [now injection E|]. destruct (mkdir fs _); [now injection E|discriminate]. }
    unfold status_file. rewrite dget_dset_same, dget_dset_other by discriminate. rewrite (entered_final _ _ _ _ _ _ F). rewrite <- (stem_is _ _ ST). unfold join.
    assert (basename ("./" ++ s) = s) as -> by exact (basename_dir "." s (stem_slash _ _ ST)). destruct (String.eqb_spec s ""); [contradiction|]. reflexivity.
  Qed.
  Theorem status_same fs1 fs2 fs1' fs2' c1 c2 b1 b2 s1 s2 ns1 ns2 f d : says c1 b1 s1 -> says c2 b2 s2 ->
    final c1 s1 "setupfn" (VStr f) -> final c2 s2 "setupfn" (VStr f) -> final c1 s1 "outputdir" d -> final c2 s2 "outputdir" d ->
    main fs1 (called_by c1 :: concat b1) = (fs1', Called c1 ns1) -> main fs2 (called_by c2 :: concat b2) = (fs2', Called c2 ns2) ->
    status_file O ns1 = status_file O ns2 /\ exists p, status_file O ns1 = Ok p.
  Proof.
    intros S1 S2 F1 F2 D1 D2. rewrite (main_says _ _ _ _ S1), (main_says _ _ _ _ S2).
    assert (forall fs fs' c ss ns, final c ss "setupfn" (VStr f) -> final c ss "outputdir" d -> go fs c (entered ss (defaults O empty c)) = (fs', Called c ns) ->
      status_file O ns = let e := match d with VStr e => e | _ => "./" ++ before_dot (basename f) end in Ok (join e (before_dot (basename f) ++ "_radvel.stat"))) as G.
    { intros fs fs' c ss ns F D. unfold go. set (e := match d with VStr e => e | _ => "./" ++ before_dot (basename f) end).
      assert (outdir O (entered ss (defaults O empty c)) = Ok e) as ->.
      { unfold outdir. rewrite (entered_final _ _ _ _ _ _ D), (entered_final _ _ _ _ _ _ F). now destruct d. }
      cbn zeta. intro E. assert (ns = dset (entered ss (defaults O empty c)) "outputdir" (VStr e)) as ->.
      { destruct (isdir fs _); [now injection E|]. destruct (mkdir fs _); [now injection E|discriminate]. }
      unfold status_file. rewrite dget_dset_same, dget_dset_other by discriminate. now rewrite (entered_final _ _ _ _ _ _ F). }
    intros E1 E2. rewrite (G _ _ _ _ _ F1 D1 E1), (G _ _ _ _ _ F2 D2 E2). cbn zeta. eauto.
  Qed.
End Lines.
