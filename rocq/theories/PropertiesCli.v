(** C84: the command line.  One full statement is that a line of a command and options calls that command with every argument
    the last value given or the default that the help states, makes no more than the directory of the outputs, that commands on
    different setup files keep different status files, and that any other line ends with exit status 2 and changes nothing.
    Words and settings agree for all lines; --serial False is true, a line without a setup file raises TypeError, plot and
    table without a type are called with None, two defaults are not those stated, and setup files of one name share a place. *)
From Coq Require Import Reals String Ascii ZArith Bool List Permutation.
From Verif Require Import Py ReportFile ReportFileSpec Cli CliSpec CliProofs CliThms CliMore CliPlace CliEx.
Import ListNotations.
Open Scope string_scope.

Theorem C84_given : forall O empty to_int to_float to_obj fs c blocks ss, says O to_int to_float to_obj c blocks ss ->
  comes_to O empty c ss fs (main O empty to_int to_float to_obj fs (called_by c :: concat blocks)).
Proof. exact given. Qed.
Print Assumptions C84_given.

Example C84_given_ex : says nat xc_int xc_float xc_obj Plot xc_blocks xc_settings /\
  exists fs' ns, xc_main [] (called_by Plot :: concat xc_blocks) = (fs', Called Plot ns) /\ there fs' "./HD7924" /\
    dget ns "type" = Some (VList ["auto"]) /\ dget ns "gp" = Some (VBool true) /\ dget ns "sampler" = Some (VStr "auto").
Proof. exact (conj xc_says xc_given). Qed.

(** any line makes no more than the directory of the outputs, and nothing if it ends *)
Theorem C84_made : forall O empty to_int to_float to_obj fs argv, match main O empty to_int to_float to_obj fs argv with
    | (fs', Called _ ns) => exists d, dget ns "outputdir" = Some (VStr d) /\ there fs' d /\ (there fs d -> fs' = fs) /\ (forall p, p <> norm d -> dget fs' p = dget fs p)
    | (fs', Ended _) => fs' = fs
    end.
Proof. exact made. Qed.
Print Assumptions C84_made.

(** options can be given in any order *)
Theorem C84_order : forall O empty to_int to_float to_obj fs c b1 b2 s1 s2,
  says O to_int to_float to_obj c b1 s1 -> says O to_int to_float to_obj c b2 s2 -> Permutation s1 s2 -> NoDup (map fst s1) ->
  alike O (main O empty to_int to_float to_obj fs (called_by c :: concat b1)) (main O empty to_int to_float to_obj fs (called_by c :: concat b2)).
Proof. exact order. Qed.
Print Assumptions C84_order.

Example C84_order_ex : says nat xc_int xc_float xc_obj Mcmc [["-s"; "star.py"]; ["--thin"; "20"]] xc_s1 /\
  says nat xc_int xc_float xc_obj Mcmc [["--thin"; "20"]; ["-s"; "star.py"]] xc_s2 /\ Permutation xc_s1 xc_s2 /\ NoDup (map fst xc_s1).
Proof. exact xc_order. Qed.

(** whatever the line, a command called was named in it, and its arguments have values their options can have *)
Theorem C84_valid : forall O empty to_int to_float to_obj fs argv fs' c ns, main O empty to_int to_float to_obj fs argv = (fs', Called c ns) ->
  In (called_by c) argv /\ forall d, In d (dkeys (defaults O empty c)) -> d <> "outputdir" -> exists v, dget ns d = Some v /\ possible O empty to_int to_float to_obj c d v.
Proof. exact valid. Qed.
Print Assumptions C84_valid.

(** a missing value, a number that is none, and a choice that is not offered are refused, and so are words left over *)
Theorem C84_refused : forall O empty to_int to_float to_obj fs c blocks ss b r, says O to_int to_float to_obj c blocks ss -> wrong to_int to_float c b -> after c r ->
  main O empty to_int to_float to_obj fs (called_by c :: concat blocks ++ b ++ r) = (fs, Ended (Exit 2)).
Proof. exact refused. Qed.
Print Assumptions C84_refused.

Theorem C84_left : forall O empty to_int to_float to_obj fs c b1 b2 s1 s2 w, says O to_int to_float to_obj c b1 s1 -> says O to_int to_float to_obj c b2 s2 -> surplus O c s1 w ->
  main O empty to_int to_float to_obj fs (called_by c :: concat b1 ++ w :: concat b2) = (fs, Ended (Exit 2)).
Proof. exact left_over. Qed.
Print Assumptions C84_left.

Example C84_refused_ex : wrong xc_int xc_float Mcmc ["--thin"; "many"] /\ after Mcmc ["--serial"; "1"] /\ wrong xc_int xc_float Plot ["-t"; "rv"; "corners"] /\
  wrong xc_int xc_float Fit ["-d"] /\ surplus nat Fit [("decorr", VBool true)] "star.py" /\ surplus nat Fit [] "--gp".
Proof. exact xc_wrong. Qed.

(** other spellings: --name=value, a name shortened, -svalue, and flags together *)
Theorem C84_equals : forall O empty to_int to_float to_obj fs c n a t ch v pre post, option_of c n a -> a_kind a = KOne t ch -> word v ->
  main O empty to_int to_float to_obj fs (called_by c :: pre ++ (n ++ "=" ++ v) :: post) = main O empty to_int to_float to_obj fs (called_by c :: pre ++ n :: v :: post).
Proof. exact equals. Qed.
Print Assumptions C84_equals.

Theorem C84_shortened : forall O empty to_int to_float to_obj fs c q n a pre post, option_of c n a -> q <> "" -> ~ In "="%char (list_ascii_of_string q) -> String.prefix ("--" ++ q) n = true ->
  (forall n' a', option_of c n' a' -> String.prefix ("--" ++ q) n' = true -> n' = n) ->
  main O empty to_int to_float to_obj fs (called_by c :: pre ++ ("--" ++ q) :: post) = main O empty to_int to_float to_obj fs (called_by c :: pre ++ n :: post).
Proof. exact shortened. Qed.
Print Assumptions C84_shortened.

Example C84_shortened_ex : option_of Mcmc "--nensembles" (mkAct ["--nensembles"] "ensembles" (KOne TInt None)) /\ String.prefix ("--" ++ "nens") "--nensembles" = true /\
  (forall n' a', option_of Mcmc n' a' -> String.prefix ("--" ++ "nens") n' = true -> n' = "--nensembles").
Proof. exact xc_short. Qed.

Theorem C84_doubtful : forall O empty to_int to_float to_obj fs c q n1 a1 n2 a2 pre post, ~ In "--" pre -> q <> "" -> ~ In "="%char (list_ascii_of_string q) ->
  option_of c n1 a1 -> option_of c n2 a2 -> n1 <> n2 -> String.prefix ("--" ++ q) n1 = true -> String.prefix ("--" ++ q) n2 = true -> (forall a, ~ option_of c ("--" ++ q) a) ->
  main O empty to_int to_float to_obj fs (called_by c :: pre ++ ("--" ++ q) :: post) = (fs, Ended (Exit 2)).
Proof. exact doubtful. Qed.
Print Assumptions C84_doubtful.

Example C84_doubtful_ex : option_of Mcmc "--minTz" (mkAct ["--minTz"] "minTz" (KOne TInt None)) /\ option_of Mcmc "--minsteps" (mkAct ["--minsteps"] "minsteps" (KOne TInt None)) /\
  String.prefix ("--" ++ "min") "--minTz" = true /\ String.prefix ("--" ++ "min") "--minsteps" = true /\ (forall a, ~ option_of Mcmc ("--" ++ "min") a).
Proof. exact xc_doubt. Qed.

Theorem C84_attached : forall O empty to_int to_float to_obj fs c x a t ch y v pre post, option_of c (String "-" (String x "")) a -> a_kind a = KOne t ch -> y <> "-"%char -> y <> "="%char ->
  main O empty to_int to_float to_obj fs (called_by c :: pre ++ (String "-" (String x (String y v))) :: post) =
  main O empty to_int to_float to_obj fs (called_by c :: pre ++ String "-" (String x "") :: String y v :: post).
Proof. exact attached. Qed.
Print Assumptions C84_attached.

Theorem C84_together : forall O empty to_int to_float to_obj fs c l pre post, flags c l -> l <> [] ->
  main O empty to_int to_float to_obj fs (called_by c :: pre ++ String "-" (joined l) :: post) =
  main O empty to_int to_float to_obj fs (called_by c :: pre ++ map (fun xa => dash (fst xa)) l ++ post).
Proof. exact together. Qed.
Print Assumptions C84_together.

Example C84_together_ex : flags Ic [("u"%char, mkAct ["-u"; "--un-mixed"] "mixed" (KFlag false)); ("f"%char, mkAct ["-f"; "--fixjitter"] "fixjitter" (KFlag true)); ("v"%char, mkAct ["-v"; "--verbose"] "verbose" (KFlag true))].
Proof. exact xc_flags. Qed.

(** the status file: of the directory and the setup file, the same for every command *)
Theorem C84_status : forall O empty to_int to_float to_obj fs fs' c blocks ss ns f s, says O to_int to_float to_obj c blocks ss ->
  final O empty c ss "setupfn" (VStr f) -> final O empty c ss "outputdir" VNone -> stem f s -> s <> "" ->
  main O empty to_int to_float to_obj fs (called_by c :: concat blocks) = (fs', Called c ns) -> status_file O ns = Ok ("./" ++ s ++ "/" ++ s ++ "_radvel.stat").
Proof. exact status_stem. Qed.
Print Assumptions C84_status.

Theorem C84_status_same : forall O empty to_int to_float to_obj fs1 fs2 fs1' fs2' c1 c2 b1 b2 s1 s2 ns1 ns2 f d,
  says O to_int to_float to_obj c1 b1 s1 -> says O to_int to_float to_obj c2 b2 s2 ->
  final O empty c1 s1 "setupfn" (VStr f) -> final O empty c2 s2 "setupfn" (VStr f) -> final O empty c1 s1 "outputdir" d -> final O empty c2 s2 "outputdir" d ->
  main O empty to_int to_float to_obj fs1 (called_by c1 :: concat b1) = (fs1', Called c1 ns1) ->
  main O empty to_int to_float to_obj fs2 (called_by c2 :: concat b2) = (fs2', Called c2 ns2) ->
  status_file O ns1 = status_file O ns2 /\ exists p, status_file O ns1 = Ok p.
Proof. exact status_same. Qed.
Print Assumptions C84_status_same.

(** a slash after the directory of the outputs or './' before it makes no difference to what is made and called *)
Theorem C84_slash : forall O empty to_int to_float to_obj fs c1 c2 b1 b2 s1 s2 d, says O to_int to_float to_obj c1 b1 s1 -> says O to_int to_float to_obj c2 b2 s2 ->
  final O empty c1 s1 "outputdir" (VStr d) -> final O empty c2 s2 "outputdir" (VStr (d ++ "/")) -> d <> "" ->
  alike_made O (main O empty to_int to_float to_obj fs (called_by c1 :: concat b1)) (main O empty to_int to_float to_obj fs (called_by c2 :: concat b2)).
Proof. exact slash_after. Qed.
Print Assumptions C84_slash.

Theorem C84_dot : forall O empty to_int to_float to_obj fs c1 c2 b1 b2 s1 s2 a d, says O to_int to_float to_obj c1 b1 s1 -> says O to_int to_float to_obj c2 b2 s2 -> a <> "."%char -> a <> "/"%char ->
  final O empty c1 s1 "outputdir" (VStr (String a d)) -> final O empty c2 s2 "outputdir" (VStr ("./" ++ String a d)) ->
  alike_made O (main O empty to_int to_float to_obj fs (called_by c1 :: concat b1)) (main O empty to_int to_float to_obj fs (called_by c2 :: concat b2)).
Proof. exact dot_before. Qed.
Print Assumptions C84_dot.

Theorem C84_slash_status : forall O empty to_int to_float to_obj fs1 fs2 fs1' fs2' c1 c2 b1 b2 s1 s2 ns1 ns2 f d p n, says O to_int to_float to_obj c1 b1 s1 -> says O to_int to_float to_obj c2 b2 s2 ->
  final O empty c1 s1 "setupfn" (VStr f) -> final O empty c2 s2 "setupfn" (VStr f) ->
  final O empty c1 s1 "outputdir" (VStr d) -> final O empty c2 s2 "outputdir" (VStr (d ++ "/")) -> names d p n -> n <> "" ->
  main O empty to_int to_float to_obj fs1 (called_by c1 :: concat b1) = (fs1', Called c1 ns1) -> main O empty to_int to_float to_obj fs2 (called_by c2 :: concat b2) = (fs2', Called c2 ns2) ->
  status_file O ns1 = status_file O ns2.
Proof. exact slash_status. Qed.
Print Assumptions C84_slash_status.

Example C84_slash_ex :
  (exists n1 n2, xc_main [] ["fit"; "-s"; "star.py"; "-d"; "out"] = ([("out", true)], Called Fit n1) /\
     xc_main [] ["mcmc"; "-s"; "star.py"; "-d"; "out/"] = ([("out", true)], Called Mcmc n2) /\
     status_file nat n1 = Ok "out/star_radvel.stat" /\ status_file nat n2 = Ok "out/star_radvel.stat") /\
  (exists n, xc_main [] ["fit"; "-s"; "star.py"; "-d"; "./out"] = ([("out", true)], Called Fit n)) /\ names "out" "" "out".
Proof. exact xc_slash. Qed.

(** Setup files of one name up to the first dot share their directory and status file. *)
Theorem C84_shared_refuted : forall O empty to_int to_float to_obj fs1 fs2 fs1' fs2' c1 c2 f1 f2 s ns1 ns2, word f1 -> word f2 -> stem f1 s -> stem f2 s -> s <> "" ->
  main O empty to_int to_float to_obj fs1 [called_by c1; "-s"; f1] = (fs1', Called c1 ns1) ->
  main O empty to_int to_float to_obj fs2 [called_by c2; "-s"; f2] = (fs2', Called c2 ns2) ->
  status_file O ns1 = status_file O ns2 /\ dget ns1 "outputdir" = dget ns2 "outputdir".
Proof. exact shared. Qed.
Print Assumptions C84_shared_refuted.

Example C84_shared_ex : stem "a/star.py" "star" /\ stem "b/star.old.py" "star" /\
  (exists f1 n1 f2 n2, xc_main [] [called_by Fit; "-s"; "a/star.py"] = (f1, Called Fit n1) /\ xc_main f1 [called_by Mcmc; "-s"; "b/star.old.py"] = (f2, Called Mcmc n2)).
Proof. exact xc_stems. Qed.

(** --serial takes a value, and any value but the empty text is true. *)
Theorem C84_serial_refuted : forall O empty to_int to_float to_obj fs f v, word f -> word v -> v <> "" ->
  exists ns, main O empty to_int to_float to_obj fs (["mcmc"; "-d"; "."; "-s"; f; "--serial"; v]) = (fs, Called Mcmc ns) /\ dget ns "serial" = Some (VBool true).
Proof. exact serial_true. Qed.
Print Assumptions C84_serial_refuted.

(** Without a setup file or output directory a line raises TypeError, and an empty line raises AttributeError. *)
Theorem C84_setup_refuted : forall O empty to_int to_float to_obj fs c, main O empty to_int to_float to_obj fs [called_by c] = (fs, Ended (Raised TypeError)).
Proof. exact no_setup. Qed.
Print Assumptions C84_setup_refuted.

Theorem C84_empty_refuted : forall O empty to_int to_float to_obj fs, main O empty to_int to_float to_obj fs [] = (fs, Ended (Raised AttributeError)).
Proof. exact no_command. Qed.
Print Assumptions C84_empty_refuted.

(** Without --type, plot and table have nothing to go through and ic goes through the letters of its default. *)
Theorem C84_type_refuted : forall O empty to_int to_float to_obj fs fs' c blocks ss ns, says O to_int to_float to_obj c blocks ss -> ~ In "type" (map fst ss) ->
  main O empty to_int to_float to_obj fs (called_by c :: concat blocks) = (fs', Called c ns) ->
  (c = Plot \/ c = Table -> types O ns = Err TypeError) /\ (c = Ic -> types O ns = Ok ["t"; "r"; "e"; "n"; "d"]).
Proof. exact no_type. Qed.
Print Assumptions C84_type_refuted.

(** The equals sign leaves room for one value only. *)
Theorem C84_many_refuted : forall O empty to_int to_float to_obj fs,
  main O empty to_int to_float to_obj fs ["plot"; "-d"; "."; "-t=rv"; "corner"] = (fs, Ended (Exit 2)) /\
  exists ns, main O empty to_int to_float to_obj fs ["plot"; "-d"; "."; "-t"; "rv"; "corner"] = (fs, Called Plot ns) /\ types O ns = Ok ["rv"; "corner"].
Proof. exact many_equals. Qed.
Print Assumptions C84_many_refuted.

(** every option sets an argument of its command, of its own name but for four, and no two options share a name *)
Theorem C84_named : forall O empty c n a, option_of c n a -> a_kind a <> KHelp ->
  In (a_dest a) (dkeys (defaults O empty c)) /\ (forall q, n = "--" ++ q -> under q = a_dest a \/ In (q, a_dest a) renamed) /\
  (forall n' a', option_of c n' a' -> n' = n -> a' = a).
Proof. exact named_after. Qed.
Print Assumptions C84_named.

(** the defaults of mcmc are those that its help states, but for two *)
Theorem C84_help_partial : forall O empty d x, In (d, x) stated -> d <> "minAfactor" -> d <> "maxArchange" -> exists v, dget (defaults O empty Mcmc) d = Some v /\ denotes O v x.
Proof. exact help_numbers. Qed.
Print Assumptions C84_help_partial.

Theorem C84_help_refuted : forall O empty,
  (exists v, In ("minAfactor", 50%R) stated /\ dget (defaults O empty Mcmc) "minAfactor" = Some v /\ denotes O v 40%R) /\
  (exists v, In ("maxArchange", (7 / 100)%R) stated /\ dget (defaults O empty Mcmc) "maxArchange" = Some v /\ denotes O v (3 / 100)%R).
Proof. exact help_wrong. Qed.
Print Assumptions C84_help_refuted.
