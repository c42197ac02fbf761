(** Model of the parameter table of the report: TexTable._row, _data and tab_params,
    radvel/report.py:196-273, 342-380, and of the parameter sets RadvelReport hands to it,
    report.py:67-70, 190.

    What is computed from the entries of a parameter (quantiles or angular statistics of its
    samples, rounding, number formatting) is an argument: [geterr], [of_quantiles], [show].
    The keys of the quantile table are the columns of the samples. A row is kept as its four
    cells together with the key whose entries it shows ([w_key], not part of the text).
    The template is not modelled. [suffixes] are those with the underscore, report.py:240. *)
From Coq Require Import String Ascii Arith Bool List.
From Verif Require Import Py Params Basis Likelihood.
Import ListNotations.
Open Scope string_scope.

(** s[:-1] *)
Fixpoint butlast (s : string) : string :=
  match s with "" => "" | String c "" => "" | String c r => String c (butlast r) end.
(** p.replace(s, ''), s not empty: occurrences from the left, not overlapping *)
Fixpoint strip_prefix (s p : string) : option string :=
  match s, p with
  | "", _ => Some p
  | String a s', String b p' => if Ascii.eqb a b then strip_prefix s' p' else None
  | _, "" => None
  end.
Fixpoint remove_all (fuel : nat) (s p : string) : string :=
  match fuel with
  | O => p
  | S f =>
      match strip_prefix s p with
      | Some r => remove_all f s r
      | None => match p with "" => "" | String c r => String c (remove_all f s r) end
      end
  end.
Definition replace_all (s p : string) : string := remove_all (S (String.length p)) s p.

(** what iterating over CompositeLikelihood.suffixes gives, likelihood.py:253, 265: with one
    likelihood the attribute is that one's suffix, a string, so its characters; otherwise the
    array of all suffixes *)
Fixpoint chars (s : string) : list string := match s with "" => [] | String c r => String c "" :: chars r end.
Definition suffixes_of (likes : list string) : list string := match likes with [s] => chars s | _ => likes end.
(** report.py:240 *)
Definition with_underscore (l : list string) : list string := map (fun j => "_" ++ j) l.

(** d.get(k, '') *)
Definition get_text (d : dict string) (k : string) : string := match dget d k with Some x => x | None => "" end.
(** the unit of parameter [p] with number appended [par], report.py:251-264 *)
Definition unit_of (units : dict string) (suffixes : list string) (p par : string) : string :=
  let u := get_text units p in
  let u := if String.eqb u "" && negb (dmem units par) then
             match find (fun s => substr_in s p) suffixes with Some s => get_text units (replace_all s p) | None => u end
           else u in
  if String.eqb u "" then get_text units par else u.

(** report.py:15-36; the values are LaTeX, the macros are kept *)
Definition report_units : dict string :=
  [("per", "days"); ("tp", "JD"); ("tc", "JD"); ("e", ""); ("w", "radians"); ("k", "m s$^{-1}$");
   ("logk", "$\ln{(\rm m\ s^{-1})}$"); ("secosw", ""); ("sesinw", ""); ("gamma", "m s$-1$"); ("jitter", "m s$-1$");
   ("logjit", "$\ln{(\rm m\ s^{-1})}$"); ("jit", "$\rm m\ s^{-1}$"); ("dvdt", "m s$^{-1}$ d$^{-1}$");
   ("curv", "m s$^{-1}$ d$^{-2}$"); ("gp_amp", "m s$-1$"); ("gp_explength", "days"); ("gp_per", "days"); ("gp_perlength", "")].

(** report.py:14 *)
Definition print_basis : string := "per tc tp e w k".

Record trow := mkTrow { w_key : string; w_tex : string; w_text : string; w_unit : string }.

Section Table.
  (** samples of a parameter, its three quantiles, statistics, best-fit value *)
  Variables (C Q T N : Type).
  Variables (chains : dict C) (quant : dict Q) (maxparams : dict N) (latex units : dict string) (suffixes : list string).
  Variables (geterr : C -> res T) (of_quantiles : Q -> T) (show : T -> N -> option Q -> res string).

  (** _row, report.py:196-229 *)
  Definition row_of (param unit : string) : res trow :=
    let param := if dmem quant param then param else butlast param in
    do t <- (if String.eqb unit "radians" then do c <- dget_res chains param; geterr c
             else do q <- dget_res quant param; Ok (of_quantiles q));
    do m <- dget_res maxparams param;
    do tex <- dget_res latex param;
    do text <- show t m (dget quant param);
    Ok (mkTrow param tex text unit).
  (** one pass of the loop report.py:247-271; KeyError is caught *)
  Definition add_row (rows : list trow) (pn : string * nat) : res (list trow) :=
    let par := key (fst pn) (snd pn) in
    match row_of par (unit_of units suffixes (fst pn) par) with
    | Ok r => Ok (rows ++ [r])%list
    | Err (KeyError _) => Ok rows
    | Err e => Err e
    end.
  (** _data, report.py:231-273: [names] is basis.split(), [loops] the number of planets, or 1 for dontloop *)
  Definition table_rows (names : list string) (loops : nat) : res (list trow) :=
    for_each (flat_map (fun n => map (fun p => (p, n)) names) (seq 1 loops)) add_row [].

  (** tab_params, report.py:349-365; sorted(op)[::-1] is [sort_desc] *)
  Fixpoint insert_desc (x : string) (l : list string) : list string :=
    match l with
    | [] => [x]
    | y :: r => match String.compare x y with Lt => y :: insert_desc x r | _ => x :: l end
    end.
  Definition sort_desc (l : list string) : list string := fold_right insert_desc [] l.
  Definition order : list string := ["gamma"; "dvdt"; "curv"; "jit"].
  Definition extra_names (extra_params names : list string) : list string :=
    (flat_map (fun o => match filter (substr_in o) extra_params with [] => [o] | op => sort_desc op end) order ++
     filter (fun p => String.prefix "gp_" p) names)%list.
  (** report.py:367-370: the three groups of rows *)
  Definition tab_params (fitting_basis : string) (nplanets : nat) (extra_params names : list string) : res (list trow * list trow * list trow) :=
    do a <- table_rows (split fitting_basis) nplanets;
    do b <- table_rows (split print_basis) nplanets;
    do c <- table_rows (split (String.concat " " (extra_names extra_params names))) 1;
    Ok (a, b, c).
End Table.

(** RadvelReport.__init__, report.py:67-70: the parameters of the posterior; TexTable takes the name
    of their basis for the fitting basis (report.py:190) *)
Definition report_params (h : heap) (ps : params) : res (heap * option params) :=
  do (h1, sp) <- to_synth h (ps_basis ps) ps true None;
  do (hb, q) <- from_synth h1 (ps_basis sp) sp print_basis true;
  Ok (fst hb, q).
Definition fitting_basis (q : params) : string := b_name (ps_basis q).
