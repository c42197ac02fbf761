(** Model of the plots of a sampling run, radvel/plot/mcmc_plots.py: TrendPlot (18-71), AutoPlot (74-121), CornerPlot
    (124-165) and the labels of DerivedPlot.plot (229-255), as far as data and texts are handed to matplotlib and corner.

    A table of samples is a dictionary of columns of real numbers.  Columns of the table of autocorrelation times are
    real numbers, of one length; the factor is not 0.  [vary] gives post.params[k].vary for the keys of the parameters;
    a dictionary has each key once.  Fonts, figure sizes and files are not modelled. *)
From Coq Require Import Reals String Arith Bool List.
From Verif Require Import Py PyFloat Params Kepler Stats Timebin TexLabels DerivTab Panels.
Import ListNotations.
Open Scope R_scope.

(** a.reshape((n0, n1, -1)), C order: ValueError if the size is no multiple of n0*n1 or that is 0 *)
Definition reshape3 {A} (n0 n1 : nat) (l : list A) : res (list (list (list A))) :=
  if Nat.eqb (n0 * n1) 0 then Err ValueError
  else if negb (Nat.eqb (length l mod (n0 * n1)) 0) then Err ValueError
  else let k := (length l / (n0 * n1))%nat in
       Ok (map (fun i => map (fun j => firstn k (skipn ((i * n1 + j) * k) l)) (seq 0 n1)) (seq 0 n0)).

(** texlabels = [post.params.tex_labels().get(l, l) for l in labels], lines 39, 145 *)
Definition labels_of (pp : list string) (letters : option (list (nat * string))) (keys labels : list string) : res (list string) :=
  map_res (fun l => do d <- tex_labels pp letters keys; Ok (match dget d l with Some t => t | None => l end)) labels.

(** a page: parameter, label of the axis, per line the place in the colour map and the values, end of the axis of steps *)
Record page := mkPage { pg_param : string; pg_label : string; pg_lines : list (R * list R); pg_end : nat }.
(** chains[k]: KeyError if there is no such column *)
Definition column (chains : dict (list R)) (k : string) : res (list R) :=
  match dget chains k with Some c => Ok c | None => Err (KeyError k) end.
(** lines 48-57; nwalkers and nensembles as in the status file *)
Definition trend_page (chains : dict (list R)) (nw ne : nat) (param tex : string) : res page :=
  do flat <- column chains param;
  do wchain <- reshape3 nw ne flat;
  Ok (mkPage param tex
        (concat (map (fun cw => map (fun line => (fst cw, line)) (snd cw)) (combine (linspace (5 / 100) (95 / 100) nw) wchain)))
        (length flat / (nw * ne))).
(** TrendPlot: __init__ and plot, lines 31-71; sorted() of the distinct keys *)
Definition trend_plot (pp : list string) (letters : option (list (nat * string))) (keys : list string) (vary : string -> bool)
  (chains : dict (list R)) (nw ne : nat) : res (list page) :=
  let labels := np_unique (filter vary keys) in
  do texs <- labels_of pp letters keys labels;
  map_res (fun lt => trend_page chains nw ne (fst lt) (snd lt)) (combine labels texs).

(** CornerPlot, lines 138-156: the columns with their labels *)
Definition corner_plot (pp : list string) (letters : option (list (nat * string))) (keys : list string) (vary : string -> bool)
  (chains : dict (list R)) : res (list (string * list R)) :=
  let labels := filter vary keys in
  do texs <- labels_of pp letters keys labels;
  do cols <- map_res (column chains) labels;
  Ok (combine texs cols).

(** DerivedPlot.plot, lines 237-246; str.format writes None for a missing label *)
Definition derived_corner (dp : dplot) : res (list (string * list R)) :=
  do cols <- map_res (fun l => column (fst dp) (d_label l)) (snd dp);
  Ok (combine (map (fun l => (match d_tex l with Some t => t | None => "None" end ++ " [" ++ d_unit l ++ "]")%string) (snd dp)) cols).

(** the table of autocorrelation times *)
Record autos := mkAuto { a_n : list R; a_min : list R; a_mean : list R; a_max : list R; a_factor : list R }.
Record autofig := mkAutoFig { af_min : list (R * R); af_mean : list (R * R); af_max : list (R * R); af_line : list (R * R);
                              af_xlim : option (R * R); af_ylim : R * R }.
(** AutoPlot.plot, lines 92-109; auto['factor'][0] of an empty table raises KeyError *)
Definition auto_plot (t : autos) : res autofig :=
  match a_factor t with
  | [] => Err (KeyError "0")
  | f0 :: _ =>
      let crit := map2 Rdiv (a_n t) (a_factor t) in
      Ok (mkAutoFig (combine (a_n t) (a_min t)) (combine (a_n t) (a_mean t)) (combine (a_n t) (a_max t))
            (map (fun n => (n, n / f0)) (a_n t))
            (if reqb (vmin (a_n t)) (vmax (a_n t)) then None else Some (vmin (a_n t), vmax (a_n t)))
            (if rltb (vmax (a_max t)) (vmax crit) then (vmin (a_min t), vmax crit) else (vmin (a_min t), vmax (a_max t))))
  end.
