(** A directory of the outputs written with './' before or a slash after it is the same directory. *)
From Coq Require Import Reals String Ascii ZArith Bool List.
From Verif Require Import Py PyFacts Params Basis Pipeline ReportFile ReportFileSpec ReportFileProofs Cli CliSpec CliProofs CliThms.
Import ListNotations.
Open Scope string_scope.

Lemma slash_after_app d : no_slash_after (d ++ "/") = no_slash_after d.
Proof. induction d as [|c d IH]; [reflexivity|]. cbn [append no_slash_after]. now rewrite IH. Qed.
Lemma norm_slash d : norm (d ++ "/") = norm d.
Proof. unfold norm. now rewrite slash_after_app. Qed.
Lemma norm_dot a d : a <> "."%char -> a <> "/"%char -> norm ("./" ++ String a d) = norm (String a d).
Proof.
  intros N1 N2. unfold norm. cbn [append].
  assert (no_slash_after (String "." (String "/" (String a d))) = String "." (String "/" (no_slash_after (String a d)))) as ->.
  { cbn [no_slash_after]. destruct (no_slash_after d); [|reflexivity]. destruct (Ascii.eqb_spec a "/"); [contradiction|reflexivity]. }
  assert (exists r, no_slash_after (String a d) = String a r) as (r & ->).
  { cbn [no_slash_after]. destruct (no_slash_after d); [|eauto]. destruct (Ascii.eqb_spec a "/"); [contradiction|eauto]. }
  cbn [String.eqb]. destruct (Ascii.eqb_spec a "."); [contradiction|]. change (Ascii.eqb "." ".") with true. change (Ascii.eqb "/" "/") with true.
  cbn [andb]. destruct (Ascii.eqb_spec a "."); [contradiction|]. now destruct r.
Qed.
Lemma app_ne d e : e <> "" -> d ++ e <> "".
Proof. destruct d; [auto|discriminate]. Qed.
Lemma isdir_norm fs d e : d <> "" -> e <> "" -> norm d = norm e -> isdir fs d = isdir fs e.
Proof. intros D E N. unfold isdir. rewrite N. now rewrite (proj2 (String.eqb_neq _ _) D), (proj2 (String.eqb_neq _ _) E). Qed.
Lemma mkdir_norm fs d e : d <> "" -> e <> "" -> norm d = norm e -> mkdir fs d = mkdir fs e.
Proof. intros D E N. unfold mkdir. rewrite N. now rewrite (proj2 (String.eqb_neq _ _) D), (proj2 (String.eqb_neq _ _) E). Qed.

Section Place.
  Variable O : Type.
  Variable empty : O.
  Variable to_int : string -> option Z.
  Variable to_float : string -> option ext.
  Variable to_obj : string -> res O.
  Notation main := (main O empty to_int to_float to_obj).
  Notation says := (says O to_int to_float to_obj).
  Notation final := (final O empty).

  Lemma go_place fs c ss d : final c ss "outputdir" (VStr d) ->
    go O fs c (entered O ss (defaults O empty c)) =
    (if isdir fs d then (fs, Called c (dset (entered O ss (defaults O empty c)) "outputdir" (VStr d)))
     else match mkdir fs d with
          | Ok fs => (fs, Called c (dset (entered O ss (defaults O empty c)) "outputdir" (VStr d)))
          | Err e => (fs, Ended (Raised e))
          end).
  Proof. intro F. unfold go, outdir. now rewrite (entered_final _ _ _ _ _ _ F). Qed.

  (** whether a line calls its command, what it raises and what it makes do not depend on the spelling *)
  Definition alike_made (x y : dict bool * outcome O) : Prop :=
    fst x = fst y /\ match snd x, snd y with Called _ _, Called _ _ => True | Ended s, Ended t => s = t | _, _ => False end.
  Lemma same_norm fs c1 c2 b1 b2 s1 s2 d e : says c1 b1 s1 -> says c2 b2 s2 ->
    final c1 s1 "outputdir" (VStr d) -> final c2 s2 "outputdir" (VStr e) -> d <> "" -> e <> "" -> norm d = norm e ->
    alike_made (main fs (called_by c1 :: concat b1)) (main fs (called_by c2 :: concat b2)).
  Proof.
    intros S1 S2 F1 F2 D E N. rewrite (main_says _ _ _ _ _ _ _ _ _ S1), (main_says _ _ _ _ _ _ _ _ _ S2), (go_place _ _ _ _ F1), (go_place _ _ _ _ F2).
    rewrite (isdir_norm fs d e D E N), (mkdir_norm fs d e D E N). destruct (isdir fs e); [now split|]. destruct (mkdir fs e); now split.
  Qed.
  Theorem slash_after fs c1 c2 b1 b2 s1 s2 d : says c1 b1 s1 -> says c2 b2 s2 ->
    final c1 s1 "outputdir" (VStr d) -> final c2 s2 "outputdir" (VStr (d ++ "/")) -> d <> "" ->
    alike_made (main fs (called_by c1 :: concat b1)) (main fs (called_by c2 :: concat b2)).
  Proof.
    intros S1 S2 F1 F2 D. eapply same_norm; eauto; [now apply app_ne|]. now rewrite norm_slash.
  Qed.
  Theorem dot_before fs c1 c2 b1 b2 s1 s2 a d : says c1 b1 s1 -> says c2 b2 s2 -> a <> "."%char -> a <> "/"%char ->
    final c1 s1 "outputdir" (VStr (String a d)) -> final c2 s2 "outputdir" (VStr ("./" ++ String a d)) ->
    alike_made (main fs (called_by c1 :: concat b1)) (main fs (called_by c2 :: concat b2)).
  Proof.
    intros S1 S2 A B F1 F2. eapply same_norm; eauto; [discriminate|discriminate|]. now rewrite norm_dot.
  Qed.
  (** and a slash after it does not change the status file *)
  Theorem slash_status fs1 fs2 fs1' fs2' c1 c2 b1 b2 s1 s2 ns1 ns2 f d p n : says c1 b1 s1 -> says c2 b2 s2 ->
    final c1 s1 "setupfn" (VStr f) -> final c2 s2 "setupfn" (VStr f) ->
    final c1 s1 "outputdir" (VStr d) -> final c2 s2 "outputdir" (VStr (d ++ "/")) -> names d p n -> n <> "" ->
    main fs1 (called_by c1 :: concat b1) = (fs1', Called c1 ns1) -> main fs2 (called_by c2 :: concat b2) = (fs2', Called c2 ns2) ->
    status_file O ns1 = status_file O ns2.
  Proof.
    intros S1 S2 F1 F2 D1 D2 N NE. rewrite (main_says _ _ _ _ _ _ _ _ _ S1), (main_says _ _ _ _ _ _ _ _ _ S2), (go_place _ _ _ _ D1), (go_place _ _ _ _ D2).
    assert (forall fs fs' c ss ns e, final c ss "setupfn" (VStr f) ->
      (if isdir fs e then (fs, Called c (dset (entered O ss (defaults O empty c)) "outputdir" (VStr e)))
       else match mkdir fs e with Ok fs => (fs, Called c (dset (entered O ss (defaults O empty c)) "outputdir" (VStr e))) | Err x => (fs, Ended (Raised x)) end) = (fs', Called c ns) ->
      status_file O ns = Ok (join e (before_dot (basename f) ++ "_radvel.stat"))) as G.
    { intros fs fs' c ss ns e F E. assert (ns = dset (entered O ss (defaults O empty c)) "outputdir" (VStr e)) as ->.
      { destruct (isdir fs _); [now injection E|]. destruct (mkdir fs _); [now injection E|discriminate]. }
      unfold status_file. rewrite dget_dset_same, dget_dset_other by discriminate. now rewrite (entered_final _ _ _ _ _ _ F). }
    intros E1 E2. rewrite (G _ _ _ _ _ _ F1 E1), (G _ _ _ _ _ _ F2 E2). f_equal. unfold join.
    rewrite (basename_names _ _ _ N), (proj2 (String.eqb_neq _ _) NE).
    assert (d <> "") as DN.
    { intros ->. destruct N as [_ [H|[H _]]]; [|congruence]. destruct p; discriminate. }
    rewrite (proj2 (String.eqb_neq _ _) DN), (proj2 (String.eqb_neq _ _) (app_ne d "/" ltac:(discriminate))).
    assert (basename (d ++ "/") = "") as -> by exact (basename_dir d "" eq_refl). cbn [orb String.eqb].
    clear. induction d as [|c d IH]; [reflexivity|]. cbn [append]. f_equal. exact IH.
  Qed.
End Place.
