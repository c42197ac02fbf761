(** Model of the making of several tables in one run: driver.tables, radvel/driver.py:503-537, and of the tables and
    figures of a report: RadvelReport.texdoc, radvel/report.py:89-122.

    All tables of a run are made by one TexTable, whose report and posterior they change.  [nplanets], [letters], [suffixes],
    [fb], [extra], [names], the velocities and the criteria belong to the setup file and the posterior and are changed by no
    table.  [priors] is the table of priors (PriorTab.v), made from such values only.  [ic]: the statistics of the status
    file, with [None] if there are none; [again]: samples and labels of a further report made from the posterior and the
    chain (RepChains.v).  Titles and templates are not modelled. *)
From Coq Require Import ZArith Reals String Ascii Arith Bool List.
From Verif Require Import Py PyFloat Params Basis Likelihood Stats PostProc ParTable DerivTab CompTable RvTab Pipeline.
Import ListNotations.
Open Scope R_scope.
Open Scope string_scope.

Inductive tab :=
| TabParams (fitted printed others : list trow)
| TabPriors (rows : list string)
| TabRv (rows : list string) (note : string)
| TabCrit (rows : list string)
| TabDerived (rows : option (list trow))            (* None: the empty text *)
| TabIc (rows : option (list string)).

(** a TexTable with its report: report.derived, report.chains, self.quantiles, report.latex_dict, post.maxparams (shared by
    all reports), the dictionary [units] of the module, report.compstats *)
Record tex := mkTex { x_derived : bool; x_chains : dict (list R); x_quant : dict (R * R * R); x_latex : dict string;
                      x_maxp : dict R; x_units : dict string; x_comp : option (list stats) }.

Section Run.
  Variables (T : Type) (setorder : list string -> list string).
  Variables (geterr : list R -> res T) (of_quantiles : R * R * R -> T) (show : T -> R -> option (R * R * R) -> res string).
  Variables (two_digits : ext -> string).
  Variables (nplanets : nat) (letters : option (list (nat * string))) (nulls suffixes : list string) (fb : string) (extra names : list string).
  Variables (priors : res (list string)) (x y yerr : list R) (telvec : list string) (minafactor maxarchange maxgr mintz : option ext).

  Definition params_tab (s : tex) : res tab :=
    do (ab, c) <- tab_params (list R) (R * R * R) T R (x_chains s) (x_quant s) (x_maxp s) (x_latex s) (x_units s) suffixes geterr of_quantiles show fb nplanets extra names;
    Ok (TabParams (fst ab) (snd ab) c).
  (** tab_derived, report.py:410-446: the samples of DerivedPlot are those of the report, whose masses it converts in place *)
  Definition derived_tab (s : tex) : res (tab * tex) :=
    if negb (x_derived s) then Ok (TabDerived None, s)
    else
      do dp <- derived_plot nplanets letters nulls (x_chains s);
      do (chains, rows) <- tab_derived T setorder geterr of_quantiles show nplanets letters nulls (x_chains s) (x_maxp s) (x_latex s) (x_units s) suffixes;
      do maxp <- for_each (map d_label (snd dp)) (fun d par =>
        do lp <- dget_res (fst dp) "lnprobability"; do i <- idxmax lp; do col <- dget_res (fst dp) par; Ok (dset d par (nth i col 0))) (x_maxp s);
      Ok (TabDerived (Some rows),
          mkTex (x_derived s) chains (quantiles chains) (dupdate (x_latex s) (map (fun l => (d_label l, match d_tex l with Some t => t | None => "None" end)) (snd dp)))
            maxp (dupdate (x_units s) (map (fun l => (d_label l, d_unit l)) (snd dp))) (x_comp s)).
  Definition comp_tab (s : tex) : res tab := do rows <- tab_comparison two_digits (x_comp s); Ok (TabIc rows).
  Definition rv_tab (max_lines : option R) : res tab := do (rows, note) <- tab_rv max_lines x y yerr telvec; Ok (TabRv rows note).
  Definition prior_tab : res tab := do rows <- priors; Ok (TabPriors rows).
  Definition crit_tab : tab := TabCrit (tab_crit minafactor maxarchange maxgr mintz).

  (** driver.py:509-529 for one type; [has_run]: the status file has the option run of section derive *)
  Definition one_tab (has_run : bool) (ic : option (res (list stats))) (again : res (dict (list R) * dict string)) (s : tex) (t : ttype) : res (tab * tex) :=
    match t with
    | TIc =>
        match ic with
        | None => Err AssertionError
        | Some ic =>
            do comp <- ic;
            do (chains, latex) <- again;
            let s := mkTex false chains (quantiles chains) latex (x_maxp s) (x_units s) (Some comp) in
            do r <- comp_tab s; Ok (r, s)
        end
    | TRv => do r <- rv_tab None; Ok (r, s)
    | TCrit => Ok (crit_tab, s)
    | TDerived => if has_run then derived_tab s else Err AssertionError
    | TParams => do r <- params_tab s; Ok (r, s)
    | TPriors => do r <- prior_tab; Ok (r, s)
    end.
  (** driver.py:509-537: the file of a type is written over; files written before an exception stay *)
  Fixpoint tables_run (has_run : bool) (ic : option (res (list stats))) (again : res (dict (list R) * dict string)) (types : list ttype) (s : tex) (files : dict tab) : dict tab * res tex :=
    match types with
    | [] => (files, Ok s)
    | t :: r =>
        match one_tab has_run ic again s t with
        | Err e => (files, Err e)
        | Ok (tb, s) => tables_run has_run ic again r s (dset files (ttext t) tb)
        end
    end.

  (** a report: figures by kind and file, tables *)
  Record doc := mkDoc { o_figures : list (string * string); o_crit : tab; o_rv : tab; o_params : tab; o_derived : tab; o_priors : tab; o_comparison : option tab }.
  (** report.py:99-106; [exists_file] tells what is in the directory *)
  Definition figures (exists_file : string -> bool) (runname : string) : list (string * string) :=
    filter (fun kf => exists_file (snd kf)) (map (fun t => ("fig_" ++ t, runname ++ "_" ++ t ++ ".pdf")) ["rv_multipanel"; "corner"; "corner_derived_pars"]).
  (** texdoc, report.py:89-122 *)
  Definition texdoc (exists_file : string -> bool) (runname : string) (s : tex) : res doc :=
    do rv <- rv_tab (Some 50);
    do params <- params_tab s;
    do (derived, s) <- derived_tab s;
    do pri <- prior_tab;
    do comp <- match x_comp s with None => Ok None | Some _ => do c <- comp_tab s; Ok (Some c) end;
    Ok (mkDoc (figures exists_file runname) crit_tab rv params derived pri comp).
End Run.
