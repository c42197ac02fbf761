(** Property theorems C80: the text in the panel of a planet. *)
From Coq Require Import ZArith Reals String Arith Bool Lra Lia List.
From Verif Require Import Py PyFloat Params ParamsSpec Format Stats PostProc PostProcSpec ParTable DerivTab DerivTabSpec TexLabels ChainPlot Anno AnnoSpec AnnoThms AnnoEx.
Import ListNotations.
Open Scope R_scope.
Open Scope string_scope.

(** * C80 *)
(** The first three lines are the period, amplitude and eccentricity of the planet, each with its label and unit.  Without
    uncertainties the line has the value of the posterior; with them the median if there is one, else that value, and the
    uncertainty of that parameter: rounded to the decimals of the uncertainty, or both as whole numbers. *)
Theorem C80_elements : forall f2 str dexp ends0 fuel pp letters value uparams medparams derived file num pnum lines,
  annotation f2 str dexp ends0 fuel pp letters value uparams medparams derived file num pnum = Ok lines ->
  exists d, tex_labels pp letters (dkeys value) = Ok d /\ (derived = None -> length lines = 3%nat) /\ forall i p, nth_error ["per"; "k"; "e"] i = Some p ->
  exists v line u, dget value (key p pnum) = Some v /\ nth_error lines i = Some line /\ element_unit p u /\
    let label := match dget d (key p pnum) with Some t => t | None => key p pnum end in
    match uparams with
    | None => line = "$\mathregular{" ++ bare label ++ "}$ = " ++ f2 v ++ " " ++ u
    | Some us => exists v' e, match medparams with Some ms => dget ms (key p pnum) = Some v' | None => v' = v end /\ dget us (key p pnum) = Some e /\ line_for f2 str dexp label u v' e line
    end.
Proof. exact anno_elements. Qed.
Print Assumptions C80_elements.

Example C80_elements_ex : annotation xstr xstr ydexp (fun _ => false) 0 ["per"; "k"; "e"] None xv None None None None 1 1 =
    Ok ["$\mathregular{P_{b}}$ = x days"; "$\mathregular{K_{b}}$ = x m s$^{\mathregular{-1}}$"; "$\mathregular{e_{b}}$ = x "] /\
  exists fuel lines, annotation xstr xstr xdexp (fun _ => false) fuel ["per"; "k"; "e"] (Some [(1%nat, "x")]) xv (Some xv) (Some xv) (Some xq) (Some xfile) 1 1 = Ok lines.
Proof. split; [exact plain_ex|exact anno_ex]. Qed.

(** The text is written, with enough rounds for sigfig, if the planet has the three parameters, with uncertainties and
    medians where there are any, and, where there are derived parameters, its column of masses has no gaps and there are at
    most ten planets. *)
Theorem C80_written : forall f2 str dexp ends0 pp letters value uparams medparams derived file num pnum d,
  tex_labels pp letters (dkeys value) = Ok d ->
  (forall p, In p ["per"; "k"; "e"] -> (exists v, dget value (key p pnum) = Some v) /\
     match uparams with None => True | Some us => (exists e, dget us (key p pnum) = Some e) /\ match medparams with None => True | Some ms => exists m, dget ms (key p pnum) = Some m end end) ->
  match derived with
  | None => True
  | Some dt => exists chains nulls col q, file = Some (chains, nulls) /\ (1 <= pnum <= num)%nat /\ (num <= 10)%nat /\ dget chains (key "mpsini" pnum) = Some col /\ ~ In (key "mpsini" pnum) nulls /\ dget dt (key "mpsini" pnum) = Some q
  end -> exists F, forall fuel, (F <= fuel)%nat -> exists lines, annotation f2 str dexp ends0 fuel pp letters value uparams medparams derived file num pnum = Ok lines.
Proof. exact anno_written. Qed.
Print Assumptions C80_written.

Example C80_written_ex : (exists d, tex_labels ["per"; "k"; "e"] None (dkeys xv) = Ok d) /\
  exists chains nulls col q, Some xfile = Some (chains, nulls) /\ dget chains (key "mpsini" 1) = Some col /\ ~ In (key "mpsini" 1) nulls /\ dget xq (key "mpsini" 1) = Some q.
Proof.
  split; [eexists; reflexivity|]. exists (fst xfile), (snd xfile), [500; 510]. eexists. split; [reflexivity|]. split; [reflexivity|]. split; [intros []|reflexivity].
Qed.

(** With the median and uncertainty that the driver's summary of the chain has for the parameter, the line shows exactly
    these two numbers: they are not rounded again. *)
Theorem C80_summary : forall f2 str dexp ends0 fuel pp letters value uparams medparams derived file num pnum lines,
  annotation f2 str dexp ends0 fuel pp letters value uparams medparams derived file num pnum = Ok lines ->
  forall us ms i p e med best col b, uparams = Some us -> medparams = Some ms -> wholes dexp ends0 -> nth_error ["per"; "k"; "e"] i = Some p ->
  dget us (key p pnum) = Some e -> dget ms (key p pnum) = Some med -> reported_for dexp ends0 fuel col best (e, med, b) -> 1 / 10 ^ 15 < e ->
  exists d u, tex_labels pp letters (dkeys value) = Ok d /\ element_unit p u /\
    nth_error lines i = Some ("$\mathregular{" ++ bare (match dget d (key p pnum) with Some t => t | None => key p pnum end) ++ "}$ = " ++ str med ++ " $\mathregular{\pm}$ " ++ str e ++ " " ++ u).
Proof. exact anno_summary. Qed.
Print Assumptions C80_summary.

Example C80_summary_ex : exists fuel us ms e med b d lines, dget us "per1" = Some e /\ dget ms "per1" = Some med /\ wholes ydexp (fun _ => false) /\
  reported_for ydexp (fun _ => false) fuel [0; 20] 3 (e, med, b) /\ 1 / 10 ^ 15 < e /\ tex_labels ["per"; "k"; "e"] None (dkeys xv) = Ok d /\
  annotation xstr xstr ydexp (fun _ => false) fuel ["per"; "k"; "e"] None xv (Some us) (Some ms) None None 1 1 = Ok lines.
Proof. exact summary_ex. Qed.

(** Full claim: with derived parameters the fourth line has the planet's mass under the planet's letter, in the unit
    beside it.  Proved: with the file of derived samples and a column without gaps, the fourth line is the last one and has
    the median and half the 68 per cent interval of the samples of the mass converted to the unit shown; the letter is
    the default one of the planet's number. *)
Theorem C80_mass_partial : forall f2 str dexp ends0 fuel pp letters value uparams medparams derived file num pnum lines,
  annotation f2 str dexp ends0 fuel pp letters value uparams medparams derived file num pnum = Ok lines ->
  forall chains nulls dt col, derived = Some dt -> file = Some (chains, nulls) -> (1 <= pnum <= num)%nat -> dget chains (key "mpsini" pnum) = Some col -> ~ In (key "mpsini" pnum) nulls ->
  dget dt (key "mpsini" pnum) = Some (quantile (159 / 1000) col, quantile (1 / 2) col, quantile (841 / 1000) col) ->
  exists l u col' line, dletter None pnum l /\ shown_as "mpsini" col col' u /\ length lines = 4%nat /\ nth_error lines 3 = Some line /\
    line_for f2 str dexp (dtex "mpsini" l) u (quantile (1 / 2) col') (spread col') line.
Proof. exact anno_mass. Qed.
Print Assumptions C80_mass_partial.

Example C80_mass_partial_ex : (exists fuel lines, annotation xstr xstr xdexp (fun _ => false) fuel ["per"; "k"; "e"] None xv (Some xv) (Some xv) (Some xq) (Some xfile) 1 1 = Ok lines) /\
  dget (fst xfile) (key "mpsini" 1) = Some [500; 510] /\ ~ In (key "mpsini" 1) (snd xfile) /\
  dget xq (key "mpsini" 1) = Some (quantile (159 / 1000) [500; 510], quantile (1 / 2) [500; 510], quantile (841 / 1000) [500; 510]).
Proof. split; [exact mass_ex|]. split; [reflexivity|]. split; [intros []|reflexivity]. Qed.

(** The letters of the setup file are not those of the mass: planet 1 named x has its period under x and its mass under b. *)
Theorem C80_letters_refuted : exists f2 str dexp ends0 fuel letters value uparams medparams d file lines r1 r2,
  annotation f2 str dexp ends0 fuel ["per"; "k"; "e"] (Some letters) value uparams medparams (Some d) (Some file) 1 1 = Ok lines /\
  letters = [(1%nat, "x")] /\ nth_error lines 0 = Some ("$\mathregular{P_{x}}$ = " ++ r1) /\ nth_error lines 3 = Some ("$\mathregular{M_b\sin i}$ = " ++ r2).
Proof. exact anno_letters. Qed.
Print Assumptions C80_letters_refuted.

(** A panel whose text could be written without the mass raises IndexError if the column of masses has gaps. *)
Theorem C80_gaps_refuted : forall f2 str dexp ends0 fuel pp letters value uparams medparams dt chains nulls num pnum lines q,
  annotation f2 str dexp ends0 fuel pp letters value uparams medparams None None num pnum = Ok lines ->
  (num <= 10)%nat -> dget dt (key "mpsini" pnum) = Some q -> In (key "mpsini" pnum) nulls ->
  annotation f2 str dexp ends0 fuel pp letters value uparams medparams (Some dt) (Some (chains, nulls)) num pnum = Err IndexError.
Proof. exact anno_gaps. Qed.
Print Assumptions C80_gaps_refuted.

Example C80_gaps_refuted_ex : annotation xstr xstr ydexp (fun _ => false) 0 ["per"; "k"; "e"] None xv None None (Some q111) (Some ([("mpsini1", [1])], ["mpsini1"])) 1 1 = Err IndexError.
Proof. eapply C80_gaps_refuted; [exact plain_ex|lia|reflexivity|now left]. Qed.

(** So does every panel of a system with more than ten planets, with KeyError. *)
Theorem C80_eleven_refuted : forall f2 str dexp ends0 fuel pp letters value uparams medparams dt chains nulls num pnum lines,
  annotation f2 str dexp ends0 fuel pp letters value uparams medparams None None num pnum = Ok lines -> (10 < num)%nat ->
  annotation f2 str dexp ends0 fuel pp letters value uparams medparams (Some dt) (Some (chains, nulls)) num pnum = Err (KeyError "11").
Proof. exact anno_eleven. Qed.
Print Assumptions C80_eleven_refuted.

Example C80_eleven_refuted_ex : annotation xstr xstr ydexp (fun _ => false) 0 ["per"; "k"; "e"] None xv None None (Some q111) (Some ([], [])) 11 1 = Err (KeyError "11").
Proof. eapply C80_eleven_refuted; [|lia]. exact plain_ex. Qed.

(** Without the file the mass is written under the name of its column and with no unit. *)
Theorem C80_unit_refuted : forall f2 str dexp ends0 fuel pp letters value us medparams dt num pnum lines e q1 q2 q3,
  annotation f2 str dexp ends0 fuel pp letters value (Some us) medparams (Some dt) None num pnum = Ok lines ->
  dget us (key "mpsini" pnum) = Some e -> dget dt (key "mpsini" pnum) = Some (q1, q2, q3) ->
  length lines = 4%nat /\ (nth_error lines 3 = Some ("$\mathregular{" ++ key "mpsini" pnum ++ "}$ = " ++ f2 q2) \/
    exists m e', nth_error lines 3 = Some ("$\mathregular{" ++ key "mpsini" pnum ++ "}$ = " ++ str m ++ " $\mathregular{\pm}$ " ++ str e')).
Proof. exact anno_no_unit. Qed.
Print Assumptions C80_unit_refuted.

Example C80_unit_refuted_ex : exists lines, annotation xstr xstr ydexp (fun _ => false) 0 ["per"; "k"; "e"] None xv (Some [("per1", 0); ("k1", 0); ("e1", 0); ("mpsini1", 0)]) None (Some q111) None 1 1 = Ok lines.
Proof. exact fallback_ex. Qed.
