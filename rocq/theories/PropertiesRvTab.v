(** Property theorems C72: the tables of velocities and of convergence criteria. *)
From Coq Require Import ZArith Reals String Ascii Arith Bool Lia Lra List.
From Flocq Require Import Core.Raux.
From Verif Require Import Py PyFloat PyFacts Params DecorrSpec TexSpec TexProofs RvTab RvTabSpec RvTabProofs.
Import ListNotations.
Open Scope R_scope.
Open Scope string_scope.

(** * C72 *)
(** The full table lists every observation once, in order, with its own time, velocity, uncertainty and instrument; each
    number reads back to within half a unit of its last decimal. *)
Theorem C72_all_rows : forall os, exists rows,
  tab_rv None (map o_t os) (map o_v os) (map o_e os) (map o_inst os) = Ok (rows, "") /\ Forall2 row_of rows os.
Proof. exact rows_all. Qed.
Print Assumptions C72_all_rows.

Example C72_all_rows_ex : shown_inst "hires_j" "hires$_{\rm j}$" /\ reading 5 "2455000.12346" = Some (2455000 + 12346 / 10 ^ 5) /\ reading 2 "-0.50" = Some (- (0 + 50 / 10 ^ 2)).
Proof. split; [exact (inst_spec "hires_j")|]. split; reflexivity. Qed.

(** The table of the report lists the first observations up to the number of lines wanted. *)
Theorem C72_first_rows : forall m os, exists rows notes,
  tab_rv (Some (INR m)) (map o_t os) (map o_v os) (map o_e os) (map o_inst os) = Ok (rows, notes) /\
  Forall2 row_of rows (firstn m os) /\ says notes m (length os).
Proof. exact rows_first. Qed.
Print Assumptions C72_first_rows.

Example C72_first_rows_ex : firstn 1 [mkObs 1 2 3 "apf"; mkObs 2 3 4 "k"] = [mkObs 1 2 3 "apf"] /\ digits "50" 0 = Some 50%Z.
Proof. split; reflexivity. Qed.

(** Two rows are the same only for observations that agree in time to 1e-5 and in velocity and uncertainty to 0.01. *)
Theorem C72_distinct_rows : forall max_lines os rows notes i j oi oj ri rj,
  tab_rv max_lines (map o_t os) (map o_v os) (map o_e os) (map o_inst os) = Ok (rows, notes) ->
  nth_error os i = Some oi -> nth_error os j = Some oj -> nth_error rows i = Some ri -> nth_error rows j = Some rj -> ri = rj ->
  Rabs (o_t oi - o_t oj) <= / 10 ^ 5 /\ Rabs (o_v oi - o_v oj) <= / 10 ^ 2 /\ Rabs (o_e oi - o_e oj) <= / 10 ^ 2.
Proof. exact distinct_rows. Qed.
Print Assumptions C72_distinct_rows.

Example C72_distinct_rows_ex : exists rows, tab_rv None (map o_t [mkObs 1 2 3 "a"; mkObs 1 2 3 "a"]) [2; 2] [3; 3] ["a"; "a"] = Ok (rows, "") /\
  nth_error rows 0 = nth_error rows 1 /\ length rows = 2%nat.
Proof. eexists. split; [reflexivity|]. split; reflexivity. Qed.

(** The table of criteria has one row for each criterion, with its own value to three decimals. *)
Theorem C72_criteria : forall minafactor maxarchange maxgr mintz, exists r1 r2 r3 r4,
  tab_crit minafactor maxarchange maxgr mintz = [r1; r2; r3; r4] /\
  crit_row "minAfactor" minafactor r1 /\ crit_row "maxArchange" maxarchange r2 /\ crit_row "maxGR" maxgr r3 /\ crit_row "minTz" mintz r4.
Proof. exact crit_thm. Qed.
Print Assumptions C72_criteria.

Example C72_criteria_ex : tab_crit None (Some PInf) None (Some NaN) = ["minAfactor & None"; "maxArchange & $    inf$"; "maxGR & None"; "minTz & $    nan$"].
Proof. reflexivity. Qed.

(** The note below the table is right if there are at least as many velocities as lines. *)
Theorem C72_note_partial : forall m os, (m <= length os)%nat -> exists rows notes,
  tab_rv (Some (INR m)) (map o_t os) (map o_v os) (map o_e os) (map o_inst os) = Ok (rows, notes) /\ says notes m (length os) /\ length rows = m.
Proof. exact note_true. Qed.
Print Assumptions C72_note_partial.

Example C72_note_ex : (1 <= length [mkObs 1 2 3 "apf"; mkObs 2 3 4 "k"])%nat.
Proof. cbn. lia. Qed.

(** If there are fewer, all are shown but the note says that only some are. *)
Theorem C72_note_refuted : forall m os, (length os < m)%nat -> exists rows notes,
  tab_rv (Some (INR m)) (map o_t os) (map o_v os) (map o_e os) (map o_inst os) = Ok (rows, notes) /\
  says notes m (length os) /\ length rows = length os /\ Forall2 row_of rows os.
Proof. exact note_false. Qed.
Print Assumptions C72_note_refuted.

Example C72_note_refuted_ex : (length [mkObs 1 2 3 "apf"] < 50)%nat.
Proof. cbn. lia. Qed.

(** A negative number of lines leaves out that many at the end, though the note speaks of the first. *)
Theorem C72_negative_refuted : forall k os, (0 < k)%nat -> exists rows notes,
  tab_rv (Some (- INR k)) (map o_t os) (map o_v os) (map o_e os) (map o_inst os) = Ok (rows, notes) /\
  Forall2 row_of rows (firstn (length os - k) os) /\ exists r, notes = "Only the first -" ++ r.
Proof. exact negative_lines. Qed.
Print Assumptions C72_negative_refuted.

Example C72_negative_refuted_ex : firstn (2 - 1) [mkObs 1 2 3 "apf"; mkObs 2 3 4 "k"] = [mkObs 1 2 3 "apf"].
Proof. reflexivity. Qed.

(** The name of an instrument with one underscore is valid TeX. *)
Theorem C72_instrument_partial : forall a b, no_brace (a ++ "_" ++ b) -> ~ occurs "_" a -> ~ occurs "_" b -> balanced (inst_label (a ++ "_" ++ b)).
Proof. exact inst_balanced. Qed.
Print Assumptions C72_instrument_partial.

Example C72_instrument_ex : no_brace ("hires" ++ "_" ++ "j") /\ ~ occurs "_" "hires" /\ ~ occurs "_" "j" /\ inst_label "hires_j" = "hires$_{\rm j}$".
Proof. repeat split; try (apply occurs_skip; reflexivity). Qed.

(** With two or more it never is: every underscore opens a brace, and only one is closed. *)
Theorem C72_instrument_refuted : forall a b c, no_brace (a ++ "_" ++ b ++ "_" ++ c) -> ~ balanced (inst_label (a ++ "_" ++ b ++ "_" ++ c)).
Proof. exact inst_unbalanced. Qed.
Print Assumptions C72_instrument_refuted.

Example C72_instrument_refuted_ex : no_brace ("hires" ++ "_" ++ "j" ++ "_" ++ "2") /\ inst_label "hires_j_2" = "hires$_{\rm j$_{\rm 2}$".
Proof. split; [split; apply occurs_skip; reflexivity|reflexivity]. Qed.
