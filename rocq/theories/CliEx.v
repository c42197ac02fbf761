(** The command line (C84): counterexamples and examples. *)
From Coq Require Import Reals String Ascii ZArith Bool List Permutation Lia Lra.
From Verif Require Import Py PyFacts Params Basis Pipeline ReportFile ReportFileSpec ReportFileProofs Cli CliSpec CliProofs CliThms CliMore.
Import ListNotations.
Open Scope string_scope.

Section Lines.
  Variables (O : Type) (empty : O) (to_int : string -> option Z) (to_float : string -> option ext) (to_obj : string -> res O).
  Notation main := (main O empty to_int to_float to_obj).
  Notation says := (says O to_int to_float to_obj).
  Notation final := (final O empty).

  Lemma setup_says c f : word f -> says c [["-s"; f]] [("setupfn", VStr f)].
  Proof.
    intro W. constructor; [|constructor]. cbn [fst snd]. change "setupfn" with (a_dest (mkAct ["-s"; "--setup"] "setupfn" (KOne TStr None))).
    apply (SOne _ _ _ _ c "-s" _ TStr None f); [|reflexivity|exact W|constructor|exact I]. split; [|now left]. right. apply in_or_app. left. right. now left.
  Qed.
  Theorem serial_true fs f v : word f -> word v -> v <> "" ->
    exists ns, main fs (["mcmc"; "-d"; "."; "-s"; f; "--serial"; v]) = (fs, Called Mcmc ns) /\ dget ns "serial" = Some (VBool true).
  Proof.
    intros WF WV NE.
    assert (says Mcmc [["-d"; "."]; ["-s"; f]; ["--serial"; v]] [("outputdir", VStr "."); ("setupfn", VStr f); ("serial", VBool true)]) as S.
    { constructor; [|constructor; [|constructor; [|constructor]]]; cbn [fst snd].
      - apply (SOne _ _ _ _ Mcmc "-d" (mkAct ["-d"] "outputdir" (KOne TStr None)) TStr None "."); [split; cbn; auto|reflexivity|cbn; discriminate|constructor|exact I].
      - pose proof (setup_says Mcmc f WF) as Q. inversion Q; subst. assumption.
      - apply (SOne _ _ _ _ Mcmc "--serial" (mkAct ["--serial"] "serial" (KOne TBool None)) TBool None v); [split; cbn; tauto|reflexivity|exact WV|now constructor|exact I]. }
    pose proof (given O empty to_int to_float to_obj fs Mcmc _ _ S) as G. change (called_by Mcmc :: concat _) with ["mcmc"; "-d"; "."; "-s"; f; "--serial"; v] in G.
    assert (forall d, place O empty Mcmc [("outputdir", VStr "."); ("setupfn", VStr f); ("serial", VBool true)] d -> d = ".") as PL.
    { intros d [F|[F _]]; apply entered_final in F; [now injection F|discriminate F]. }
    assert (there fs ".") as T by (split; [discriminate|now left]).
    destruct (main fs _) as [fs' [[n|e]|c ns]]; [destruct G| |].
    - destruct G as (_ & [(_ & F & _)|(d & P & NT & _)]); [apply entered_final in F; discriminate F|]. apply PL in P as ->. contradiction.
    - destruct G as (-> & V & d & P & _ & _ & SAME & _). apply PL in P as ->. exists ns. rewrite (SAME T). split; [reflexivity|]. apply V; [discriminate|]. left. exists [("outputdir", VStr "."); ("setupfn", VStr f)], []. split; [reflexivity|intros []].
  Qed.
  Theorem no_setup fs c : main fs [called_by c] = (fs, Ended (Raised TypeError)).
  Proof. destruct c; reflexivity. Qed.
  Theorem no_command fs : main fs [] = (fs, Ended (Raised AttributeError)).
  Proof. reflexivity. Qed.
  Theorem no_type fs fs' c blocks ss ns : says c blocks ss -> ~ In "type" (map fst ss) -> main fs (called_by c :: concat blocks) = (fs', Called c ns) ->
    (c = Plot \/ c = Table -> types O ns = Err TypeError) /\ (c = Ic -> types O ns = Ok ["t"; "r"; "e"; "n"; "d"]).
  Proof.
    intros S N E. pose proof (given O empty to_int to_float to_obj fs c _ _ S) as G. rewrite E in G. destruct G as (_ & V & _).
    assert (forall v, dget (defaults O empty c) "type" = Some v -> dget ns "type" = Some v) as D by (intros v D; apply V; [discriminate|right; auto]).
    unfold types. split; [intros [-> | ->]|intros ->]; rewrite (D _ eq_refl); reflexivity.
  Qed.
  Theorem shared fs1 fs2 fs1' fs2' c1 c2 f1 f2 s ns1 ns2 : word f1 -> word f2 -> stem f1 s -> stem f2 s -> s <> "" ->
    main fs1 [called_by c1; "-s"; f1] = (fs1', Called c1 ns1) -> main fs2 [called_by c2; "-s"; f2] = (fs2', Called c2 ns2) ->
    status_file O ns1 = status_file O ns2 /\ dget ns1 "outputdir" = dget ns2 "outputdir".
  Proof.
    intros W1 W2 S1 S2 N E1 E2.
    assert (forall c f, dget (defaults O empty c) "outputdir" = Some VNone /\ final c [("setupfn", VStr f)] "setupfn" (VStr f)) as F.
    { intros c f. split; [destruct c; reflexivity|]. left. exists [], []. split; [reflexivity|intros []]. }
    assert (forall c f, final c [("setupfn", VStr f)] "outputdir" VNone) as D.
    { intros c f. right. split; [cbn; intuition discriminate|apply (F c f)]. }
    assert (forall fs fs' c f ns, word f -> stem f s -> main fs [called_by c; "-s"; f] = (fs', Called c ns) -> status_file O ns = Ok ("./" ++ s ++ "/" ++ s ++ "_radvel.stat") /\ dget ns "outputdir" = Some (VStr ("./" ++ s))) as Q.
    { intros fs fs' c f ns W ST E. change [called_by c; "-s"; f] with (called_by c :: concat [["-s"; f]]) in E. pose proof (setup_says c f W) as S. split.
      - exact (status_stem O empty to_int to_float to_obj _ _ _ _ _ _ f s S (proj2 (F c f)) (D c f) ST N E).
      - pose proof (given O empty to_int to_float to_obj fs c _ _ S) as G. rewrite E in G. destruct G as (_ & _ & d & P & O1 & _). rewrite O1. f_equal. f_equal.
        destruct P as [P|(_ & g & t & P & T & ->)]; [pose proof (final_unique O empty _ _ _ _ _ P (D c f)); discriminate|].
        pose proof (final_unique O empty _ _ _ _ _ P (proj2 (F c f))) as U. injection U as ->. now rewrite (stem_is _ _ T), (stem_is _ _ ST). }
    destruct (Q _ _ _ _ _ W1 S1 E1) as [-> ->]. destruct (Q _ _ _ _ _ W2 S2 E2) as [-> ->]. auto.
  Qed.
  Theorem many_equals fs : main fs ["plot"; "-d"; "."; "-t=rv"; "corner"] = (fs, Ended (Exit 2)) /\
    exists ns, main fs ["plot"; "-d"; "."; "-t"; "rv"; "corner"] = (fs, Called Plot ns) /\ types O ns = Ok ["rv"; "corner"].
  Proof. split; [reflexivity|]. eexists. split; reflexivity. Qed.
  Theorem named_after c n a : option_of c n a -> a_kind a <> KHelp ->
    In (a_dest a) (dkeys (defaults O empty c)) /\ (forall q, n = "--" ++ q -> under q = a_dest a \/ In (q, a_dest a) renamed) /\
    (forall n' a', option_of c n' a' -> n' = n -> a' = a).
  Proof.
    clear to_int to_float to_obj. intros H K. split; [|split].
    - destruct H as [A N]. destruct c; cbn in A; in_exact A; subst a; try (now destruct K); cbn; tauto.
    - intros q ->. destruct H as [A N]. destruct c; cbn in A; in_exact A; subst a; try (now destruct K); cbn in N; in_exact N; try discriminate N; injection N as <-; cbn; tauto.
    - intros n' a' H' ->. destruct (option_class _ _ _ H) as [C1 _], (option_class _ _ _ H') as [C2 _]. congruence.
  Qed.
  Theorem help_numbers d x : In (d, x) stated -> d <> "minAfactor" -> d <> "maxArchange" -> exists v, dget (defaults O empty Mcmc) d = Some v /\ denotes O v x.
  Proof.
    intros I N1 N2. unfold stated in I. cbn [In] in I.
    repeat (destruct I as [I|I]; [injection I as <- <-; first [now destruct N1|now destruct N2|eexists; split; [reflexivity|first [reflexivity|cbn; lra]]]|]). destruct I.
  Qed.
  Theorem help_wrong : (exists v, In ("minAfactor", 50%R) stated /\ dget (defaults O empty Mcmc) "minAfactor" = Some v /\ denotes O v 40%R) /\
    (exists v, In ("maxArchange", (7 / 100)%R) stated /\ dget (defaults O empty Mcmc) "maxArchange" = Some v /\ denotes O v (3 / 100)%R).
  Proof. split; eexists; (split; [cbn; tauto|split; [reflexivity|cbn; reflexivity]]). Qed.
End Lines.

(** examples *)
Definition xc_int (s : string) : option Z := if String.eqb s "20" then Some 20%Z else None.
Definition xc_float (s : string) : option ext := if String.eqb s "1e3" then Some (Fin 1000) else None.
Definition xc_obj (s : string) : res nat := if String.eqb s "{'a': 1}" then Ok 1%nat else if String.eqb s "{" then Err RuntimeError else Err TypeError.
Notation xc_main := (main nat 0%nat xc_int xc_float xc_obj).
Definition xc_settings : list (string * value nat) := [("setupfn", VStr "sys/HD7924.py"); ("type", VList ["rv"; "corner"]); ("gp", VBool true); ("type", VList ["auto"])].
Definition xc_blocks : list (list string) := [["-s"; "sys/HD7924.py"]; ["-t"; "rv"; "corner"]; ["--gp"]; ["--type"; "auto"]].
Lemma xc_says : says nat xc_int xc_float xc_obj Plot xc_blocks xc_settings.
Proof.
  unfold xc_blocks, xc_settings. constructor; [|constructor; [|constructor; [|constructor; [|constructor]]]]; cbn [fst snd].
  - apply (SOne _ _ _ _ Plot "-s" (mkAct ["-s"; "--setup"] "setupfn" (KOne TStr None)) TStr None); [split; cbn; auto|reflexivity|cbn; discriminate|constructor|exact I].
  - apply (SMany _ _ _ _ Plot "-t" (mkAct ["-t"; "--type"] "type" (KMany ["rv"; "auto"; "corner"; "trend"; "derived"])) ["rv"; "auto"; "corner"; "trend"; "derived"] "rv" ["corner"]); [split; cbn; tauto|reflexivity| |].
    + repeat constructor; cbn; discriminate.
    + repeat constructor; cbn; tauto.
  - apply (SFlag _ _ _ _ Plot "--gp" (mkAct ["--gp"] "gp" (KFlag true)) true); [split; cbn; tauto|reflexivity].
  - apply (SMany _ _ _ _ Plot "--type" (mkAct ["-t"; "--type"] "type" (KMany ["rv"; "auto"; "corner"; "trend"; "derived"])) ["rv"; "auto"; "corner"; "trend"; "derived"] "auto" []); [split; cbn; tauto|reflexivity| |].
    + repeat constructor; cbn; discriminate.
    + repeat constructor; cbn; tauto.
Qed.
Lemma xc_given : exists fs' ns, xc_main [] (called_by Plot :: concat xc_blocks) = (fs', Called Plot ns) /\ there fs' "./HD7924" /\
  dget ns "type" = Some (VList ["auto"]) /\ dget ns "gp" = Some (VBool true) /\ dget ns "sampler" = Some (VStr "auto").
Proof. eexists. eexists. split; [reflexivity|]. split; [split; [discriminate|right; reflexivity]|]. auto. Qed.
Definition xc_s1 : list (string * value nat) := [("setupfn", VStr "star.py"); ("thin", VInt 20)].
Definition xc_s2 : list (string * value nat) := [("thin", VInt 20); ("setupfn", VStr "star.py")].
Lemma xc_order : says nat xc_int xc_float xc_obj Mcmc [["-s"; "star.py"]; ["--thin"; "20"]] xc_s1 /\
  says nat xc_int xc_float xc_obj Mcmc [["--thin"; "20"]; ["-s"; "star.py"]] xc_s2 /\ Permutation xc_s1 xc_s2 /\ NoDup (map fst xc_s1).
Proof.
  assert (sets nat xc_int xc_float xc_obj Mcmc ["--thin"; "20"] "thin" (VInt 20)) as N.
  { apply (SOne _ _ _ _ Mcmc "--thin" (mkAct ["--thin"] "thin" (KOne TInt None)) TInt None "20"); [split; cbn; tauto|reflexivity|cbn; discriminate|now constructor|exact I]. }
  assert (sets nat xc_int xc_float xc_obj Mcmc ["-s"; "star.py"] "setupfn" (VStr "star.py")) as S.
  { assert (word "star.py") as W by (cbn; discriminate). pose proof (setup_says nat xc_int xc_float xc_obj Mcmc "star.py" W) as Q. inversion Q; subst. assumption. }
  split; [repeat constructor; assumption|]. split; [repeat constructor; assumption|]. split; [apply perm_swap|]. repeat constructor; cbn; intuition discriminate.
Qed.
Lemma xc_wrong : wrong xc_int xc_float Mcmc ["--thin"; "many"] /\ after Mcmc ["--serial"; "1"] /\ wrong xc_int xc_float Plot ["-t"; "rv"; "corners"] /\
  wrong xc_int xc_float Fit ["-d"] /\ surplus nat Fit [("decorr", VBool true)] "star.py" /\ surplus nat Fit [] "--gp".
Proof.
  split; [|split; [|split; [|split; [|split]]]].
  - apply (WInt _ _ _ "--thin" (mkAct ["--thin"] "thin" (KOne TInt None)) None); [split; cbn; tauto|reflexivity|cbn; discriminate|reflexivity].
  - exists (mkAct ["--serial"] "serial" (KOne TBool None)). split; cbn; tauto.
  - apply (WMany _ _ _ "-t" (mkAct ["-t"; "--type"] "type" (KMany ["rv"; "auto"; "corner"; "trend"; "derived"])) ["rv"; "auto"; "corner"; "trend"; "derived"] ["rv"; "corners"] "corners"); [split; cbn; tauto|reflexivity| |cbn; tauto|cbn; intuition discriminate].
    repeat constructor; cbn; discriminate.
  - apply (WMissing _ _ _ "-d" (mkAct ["-d"] "outputdir" (KOne TStr None))); [split; cbn; tauto|exact I].
  - apply XWord; [cbn; discriminate|exact I].
  - apply (XUnknown _ _ _ _ "gp"); [reflexivity|discriminate|cbn; intuition discriminate|cbn; intuition discriminate|].
    intros n a [A N]. cbn in A. destruct A as [<-|[<-|[<-|[<-|[]]]]]; cbn in N; intuition subst; reflexivity.
Qed.
Lemma xc_short : option_of Mcmc "--nensembles" (mkAct ["--nensembles"] "ensembles" (KOne TInt None)) /\ String.prefix ("--" ++ "nens") "--nensembles" = true /\
  (forall n' a', option_of Mcmc n' a' -> String.prefix ("--" ++ "nens") n' = true -> n' = "--nensembles").
Proof.
  split; [split; cbn; tauto|]. split; [reflexivity|]. intros n a [A N] P. cbn in A. repeat (destruct A as [<-|A]; [cbn in N; intuition subst; solve [reflexivity|discriminate P]|]). destruct A.
Qed.
Lemma xc_doubt : option_of Mcmc "--minTz" (mkAct ["--minTz"] "minTz" (KOne TInt None)) /\ option_of Mcmc "--minsteps" (mkAct ["--minsteps"] "minsteps" (KOne TInt None)) /\
  String.prefix ("--" ++ "min") "--minTz" = true /\ String.prefix ("--" ++ "min") "--minsteps" = true /\ (forall a, ~ option_of Mcmc ("--" ++ "min") a).
Proof.
  split; [split; cbn; tauto|]. split; [split; cbn; tauto|]. split; [reflexivity|]. split; [reflexivity|]. intros a [A N]. cbn in A. repeat (destruct A as [<-|A]; [cbn in N; intuition discriminate|]). destruct A.
Qed.
Lemma xc_flags : flags Ic [("u"%char, mkAct ["-u"; "--un-mixed"] "mixed" (KFlag false)); ("f"%char, mkAct ["-f"; "--fixjitter"] "fixjitter" (KFlag true)); ("v"%char, mkAct ["-v"; "--verbose"] "verbose" (KFlag true))].
Proof.
  constructor; [|constructor; [|constructor; [|constructor]]]; (split; [split; cbn; tauto|]); eexists; reflexivity.
Qed.
Lemma xc_stems : stem "a/star.py" "star" /\ stem "b/star.old.py" "star" /\
  (exists f1 n1 f2 n2, xc_main [] [called_by Fit; "-s"; "a/star.py"] = (f1, Called Fit n1) /\ xc_main f1 [called_by Mcmc; "-s"; "b/star.old.py"] = (f2, Called Mcmc n2)).
Proof.
  split; [|split].
  - exists "a", "star.py". split; [split; [cbn; intuition discriminate|now left]|]. split; [cbn; intuition discriminate|]. right. now exists "py".
  - exists "b", "star.old.py". split; [split; [cbn; intuition discriminate|now left]|]. split; [cbn; intuition discriminate|]. right. now exists "old.py".
  - eexists. eexists. eexists. eexists. split; reflexivity.
Qed.
Lemma xc_slash :
  (exists n1 n2, xc_main [] ["fit"; "-s"; "star.py"; "-d"; "out"] = ([("out", true)], Called Fit n1) /\
     xc_main [] ["mcmc"; "-s"; "star.py"; "-d"; "out/"] = ([("out", true)], Called Mcmc n2) /\
     status_file nat n1 = Ok "out/star_radvel.stat" /\ status_file nat n2 = Ok "out/star_radvel.stat") /\
  (exists n, xc_main [] ["fit"; "-s"; "star.py"; "-d"; "./out"] = ([("out", true)], Called Fit n)) /\ names "out" "" "out".
Proof.
  split; [|split].
  - eexists. eexists. split; [reflexivity|]. split; [reflexivity|]. split; reflexivity.
  - eexists. reflexivity.
  - split; [cbn; intuition discriminate|now right].
Qed.
