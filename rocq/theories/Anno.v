(** Model of the text that MultipanelPlot.plot_phasefold writes into the panel of a planet, radvel/plot/orbit_plots.py:332-428.

    [f2] writes a number with two decimals ('%4.2f'), [str] with str(); [dexp] and [ends0] as in Format.v.  Values and
    uncertainties are real numbers.  Warnings, fonts and the place of the text are not modelled. *)
From Coq Require Import ZArith Reals String Ascii Arith Bool List.
From Verif Require Import Py PyFloat Params Likelihood Format Stats TexLabels PostProc DerivTab ChainPlot.
Import ListNotations.
Open Scope R_scope.
Open Scope string_scope.

(** s.replace("$", "") *)
Fixpoint nodollar (s : string) : string :=
  match s with "" => "" | String c r => if Ascii.eqb c "$" then nodollar r else String c (nodollar r) end.
(** plot.latex['ms'], plot/__init__.py:9-12 *)
Definition MS : string := "m s$^{\mathregular{-1}}$".
(** units, orbit_plots.py:345 *)
Definition unit_of_element (p : string) : string := if String.eqb p "per" then "days" else if String.eqb p "k" then MS else "".

(** self.post.derived: 0.159, 0.500 and 0.841 quantile of each column *)
Definition derived_table : Type := dict (R * R * R).

Section Anno.
  Variables (f2 str : R -> string) (dexp : R -> Z) (ends0 : R -> bool) (fuel : nat).

  Definition plain (label : string) (v : R) (unit : string) : string :=
    "$\mathregular{" ++ nodollar label ++ "}$ = " ++ f2 v ++ " " ++ unit.
  Definition with_error (label : string) (v e : R) (unit : string) : string :=
    "$\mathregular{" ++ nodollar label ++ "}$ = " ++ str v ++ " $\mathregular{\pm}$ " ++ str e ++ " " ++ unit.
  (** orbit_plots.py:363-369, 402-408 *)
  Definition measured (label : string) (v e : R) (unit : string) : res string :=
    if rltb (1 / 10 ^ 15) e then do (me, _) <- sigfig dexp ends0 fuel v e None; Ok (with_error label (fst me) (snd me) unit)
    else Ok (plain label v unit).

  (** lines 348-369 for one element; [value] gives self.post.params[k].value *)
  Definition element_line (value : dict R) (uparams medparams : option (dict R)) (pnum : nat) (p label : string) : res string :=
    do v <- dget_res value (key p pnum);
    match uparams with
    | None => Ok (plain label v (unit_of_element p))
    | Some u =>
        do v <- match medparams with Some m => dget_res m (key p pnum) | None => Ok v end;
        do e <- dget_res u (key p pnum);
        measured label v e (unit_of_element p)
    end.

  (** lines 391-396 *)
  Definition conversion (unit : string) : R :=
    if String.eqb unit JUP then 315 / 100000 else if String.eqb unit SUN then 954265748 / 1000000000000 else 1.
  (** lines 375-411; [chains]: the file of derived samples and its columns with gaps.  The posterior has no planet_letters *)
  Definition mass_of_chain (num : nat) (chains : dict (list R)) (nulls : list string) (d : derived_table) (pnum : nat) : res (list string) :=
    do dp <- derived_plot num None nulls chains;
    match dget d (key "mpsini" pnum) with
    | None => Ok []
    | Some (q1, q2, q3) =>
        match find (fun l => String.eqb (d_label l) (key "mpsini" pnum)) (snd dp) with
        | None => Err IndexError
        | Some l =>
            let c := conversion (d_unit l) in
            let val := q2 * c in
            let low := q1 * c in
            let high := q3 * c in
            let err := round_sig ((val - low + (high - val)) / 2) 2 in
            match d_tex l with
            | None => Err AttributeError
            | Some t => do s <- measured t val err (d_unit l); Ok [s]
            end
        end
    end.
  (** lines 412-428: without a file; no unit is written *)
  Definition mass_of_error (u : dict R) (d : derived_table) (pnum : nat) : res (list string) :=
    match dget u (key "mpsini" pnum), dget d (key "mpsini" pnum) with
    | Some e, Some (_, q2, _) =>
        let err := round_sig e 2 in
        let label := "$\mathregular{" ++ key "mpsini" pnum ++ "}$ = " in
        if rltb (1 / 10 ^ 15) err then
          do (me, _) <- sigfig dexp ends0 fuel q2 err None; Ok [label ++ str (fst me) ++ " $\mathregular{\pm}$ " ++ str (snd me)]
        else Ok [label ++ f2 q2]
    | _, _ => Ok []
    end.

  (** the lines of the text *)
  Definition annotation (pp : list string) (letters : option (list (nat * string))) (value : dict R) (uparams medparams : option (dict R))
    (derived : option derived_table) (file : option (dict (list R) * list string)) (num pnum : nat) : res (list string) :=
    do labels <- labels_of pp letters (dkeys value) (map (fun p => key p pnum) ["per"; "k"; "e"]);
    do elements <- map_res (fun pl => element_line value uparams medparams pnum (fst pl) (snd pl)) (combine ["per"; "k"; "e"] labels);
    do mass <- match derived with
               | None => Ok []
               | Some d => match file with
                           | Some (chains, nulls) => mass_of_chain num chains nulls d pnum
                           | None => match uparams with Some u => mass_of_error u d pnum | None => Ok [] end
                           end
               end;
    Ok (elements ++ mass)%list.
End Anno.
