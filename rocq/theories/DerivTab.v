(** Model of DerivedPlot.__init__ and texlabel, radvel/plot/mcmc_plots.py:181-227, 257-271, and of
    TexTable.tab_derived, radvel/report.py:410-446.

    The samples are columns of real numbers; [nulls] are the columns with missing values.  A column name
    occurs once.  The order in which a set of strings is listed is an argument.  Statistics and number
    formatting are arguments as in ParTable.v.  The template is not modelled. *)
From Coq Require Import ZArith Reals String Ascii Arith Bool List.
From Verif Require Import Py PyFloat Params Basis Likelihood Stats PostProc ParTable.
Import ListNotations.
Open Scope R_scope.
Open Scope string_scope.

(** key.count(s), s not empty *)
Fixpoint count_in (fuel : nat) (s k : string) : nat :=
  match fuel with
  | O => O
  | S f => match strip_prefix s k with Some r => S (count_in f s r) | None => match k with "" => O | String _ r => count_in f s r end end
  end.
Definition count (s k : string) : nat := count_in (S (String.length k)) s k.
(** texlabel, mcmc_plots.py:257-271; None if no line returns *)
Definition texlabel (k letter : string) : option string :=
  if Nat.eqb (count "mpsini" k) 1 then Some ("$M_" ++ letter ++ "\sin i$")
  else if Nat.eqb (count "rhop" k) 1 then Some ("$\rho_" ++ letter ++ "$")
  else if Nat.eqb (count "a" k) 1 then Some ("$a_" ++ letter ++ "$")
  else None.

(** mcmc_plots.py:183-186: planet_letters, if P has them *)
Definition default_letters : list (nat * string) :=
  [(1, "b"); (2, "c"); (3, "d"); (4, "e"); (5, "f"); (6, "g"); (7, "h"); (8, "i"); (9, "j"); (10, "k")]%nat.
Definition letter_at (letters : option (list (nat * string))) (i : nat) : res string :=
  match find (fun e => Nat.eqb (fst e) i) (match letters with Some d => d | None => default_letters end) with
  | Some e => Ok (snd e)
  | None => Err (KeyError (str_nat i))
  end.

(** labels with their TeX text and unit *)
Record dlabel := mkDlabel { d_label : string; d_tex : option string; d_unit : string }.
Definition dplot : Type := dict (list R) * list dlabel.
Definition EARTH : string := "M$_{\oplus}$".
Definition JUP : string := "M$_{\rm Jup}$".
Definition SUN : string := "M$_{\odot}$".

(** one column, mcmc_plots.py:196-227 *)
Definition dp_key (nulls : list string) (letter : string) (i : nat) (st : dplot) (k : string) : dplot :=
  let label := key k i in
  match dget (fst st) label with
  | None => st
  | Some col =>
      if existsb (String.eqb label) nulls then st
      else
        let tl := texlabel label letter in
        let '(chains, unit) :=
          if String.eqb k "mpsini" then
            if rltb 100 (median col) then (dset (fst st) label (map (fun x => x * (315 / 100000)) col), JUP)
            else if rltb 100 (median col) then (dset (fst st) label (map (fun x => x * (954265748 / 1000000000000)) col), SUN)
            else (fst st, EARTH)
          else if String.eqb k "rhop" then (fst st, " g cm$^{-3}$")
          else if String.eqb k "a" then (fst st, " AU")
          else (fst st, " ") in
        (chains, (snd st ++ [mkDlabel label tl unit])%list)
  end.
(** mcmc_plots.py:189-227 *)
Definition derived_plot (nplanets : nat) (letters : option (list (nat * string))) (nulls : list string) (chains : dict (list R)) : res dplot :=
  for_each (seq 1 nplanets) (fun st i => do letter <- letter_at letters i; Ok (fold_left (dp_key nulls letter i) ["mpsini"; "rhop"; "a"] st)) (chains, []).

(** DataFrame.quantile([0.159, 0.5, 0.841]) *)
Definition quantiles (chains : dict (list R)) : dict (R * R * R) :=
  map (fun kv => (fst kv, (quantile (159 / 1000) (snd kv), quantile (1 / 2) (snd kv), quantile (841 / 1000) (snd kv)))) chains.
(** Series.idxmax: the first place of the largest value *)
Fixpoint idxmax_from (l : list R) (i best : nat) (x : R) : nat :=
  match l with [] => best | y :: r => if rltb x y then idxmax_from r (S i) i y else idxmax_from r (S i) best x end.
Definition idxmax (l : list R) : res nat := match l with [] => Err ValueError | x :: r => Ok (idxmax_from r 1 0 x) end.

Section Tab.
  Variables (T : Type) (setorder : list string -> list string).
  Variables (geterr : list R -> res T) (of_quantiles : R * R * R -> T) (show : T -> R -> option (R * R * R) -> res string).

  (** report.py:420-439; a label without TeX text would show as None *)
  Definition tab_derived (nplanets : nat) (letters : option (list (nat * string))) (nulls : list string) (chains : dict (list R))
      (maxparams : dict R) (latex units : dict string) (suffixes : list string) : res (dict (list R) * list trow) :=
    do dp <- derived_plot nplanets letters nulls chains;
    let labels := map d_label (snd dp) in
    let basis := String.concat " " (setorder (map butlast labels)) in
    let latex := dupdate latex (map (fun l => (d_label l, match d_tex l with Some t => t | None => "None" end)) (snd dp)) in
    let units := dupdate units (map (fun l => (d_label l, d_unit l)) (snd dp)) in
    let quant := quantiles (fst dp) in
    do maxparams <- for_each labels (fun d par =>
        do lp <- dget_res (fst dp) "lnprobability"; do i <- idxmax lp; do col <- dget_res (fst dp) par; Ok (dset d par (nth i col 0))) maxparams;
    do rows <- table_rows (list R) (R * R * R) T R (fst dp) quant maxparams latex units suffixes geterr of_quantiles show (split basis) nplanets;
    Ok (fst dp, rows).
End Tab.
