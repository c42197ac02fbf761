(** Model of the descriptions of priors, __str__ and __repr__ of the classes of radvel/prior.py, and of the rows of
    TexTable.tab_prior_summary, radvel/report.py:275-299.  The title and the template are not modelled.

    [show] is Python's '{}'.format of a number, any function; [text] is the tex_rep of a user-defined prior or the
    description of a user's own class. *)
From Coq Require Import Reals String Ascii Arith Bool List.
From Verif Require Import Py PyFloat Params Basis Likelihood ParTable Prior TexLabels.
Import ListNotations.
Open Scope string_scope.

(** model.Parameters(9): the parameters of the default basis, model.py:100-109; no letters *)
Definition default_names : list string := ["per"; "tc"; "secosw"; "sesinw"; "logk"].
Definition labels_of (l : list string) : res (dict string) := tex_labels default_names None l.
(** model.Parameters(9, basis='per tc e w k').tex_labels(), prior.py:89 *)
Definition ecc_names : list string := ["per"; "tc"; "e"; "w"; "k"].
Definition ecc_labels : res (dict string) :=
  tex_labels ecc_names None (flat_map (fun n => map (fun p => key p n) ecc_names) (seq 1 9)).

(** try: ... except KeyError: self.__repr__() *)
Definition or_repr (m : res string) (repr : string) : res string :=
  match m with Err (KeyError _) => Ok repr | r => r end.
(** tex = Parameters(9).tex_labels(param_list=[self.param])[self.param] *)
Definition label_of (param : string) : res string := do d <- labels_of [param]; dget_res d param.
Definition no_dollar (s : string) : string := replace_by "$" "" s.

Section Show.
Variable show : ext -> string.
Definition num (x : R) : string := show (Fin x).

(** prior.py:46-50, 233-237, 345-349, 401-405, 583-587 *)
Definition prior_repr (p : prior) : string :=
  match p with
  | PGaussian s mu sigma => "Gaussian prior on " ++ s ++ ", mu=" ++ num mu ++ ", sigma=" ++ num sigma
  | PHard s a b => "Bounded prior on " ++ s ++ ", min=" ++ show a ++ ", max=" ++ show b
  | PJeffreys s a b _ => "Jeffrey's prior on " ++ s ++ ", min=" ++ num a ++ ", max=" ++ num b
  | PModJeffreys s a b k _ => "Modified Jeffrey's prior on " ++ s ++ ", knee=" ++ num k ++ ", min=" ++ num a ++ ", max=" ++ num b
  | PBaseline s base dur => "Informative baseline prior on " ++ s ++ ", baseline=" ++ num base ++ ", duration=" ++ num dur
  | _ => "Generic Prior"
  end.

(** a newline *)
Definition nl : string := String (ascii_of_nat 10) "".
(** s[:-5] *)
Definition drop5 (s : string) : string := butlast (butlast (butlast (butlast (butlast s)))).
(** the loop of prior.py:91-95 *)
Fixpoint ecc_lines (tex : dict string) (pl : list nat) (lims : list R) (msg : string) : res string :=
  match pl with
  | [] => Ok msg
  | n :: pl' =>
      do label <- dget_res tex (key "e" n);
      match lims with
      | [] => Err IndexError
      | u :: lims' => ecc_lines tex pl' lims' (msg ++ label ++ " constrained to be $<" ++ num u ++ "$ \\\\" ++ nl)
      end
  end.
(** prior.py:484-488; [el] is unbound if there is no parameter *)
Fixpoint join_and (t : list string) : res string :=
  match t with
  | [] => Err UnboundLocalError
  | [a] => Ok ("and " ++ a)
  | a :: r => do s <- join_and r; Ok (a ++ ", " ++ s)
  end.
(** the parameters named by a numerical prior, prior.py:478-488; [t]: the labels, each once *)
Definition name_list (param_list t : list string) : res string :=
  match length param_list with
  | 1 => match t with a :: _ => Ok a | [] => Err IndexError end
  | 2 => match t with a :: b :: _ => Ok (a ++ " and " ++ b) | _ => Err IndexError end
  | n => if Nat.eqb (length t) n then join_and t else Err IndexError
  end.

(** __str__: prior.py:52-60, 88-97, 166-167, 239-249, 272-275, 350-360, 406-416, 476-494, 553-555; InformativeBaselinePrior
    has none, so that __repr__ is used *)
Definition prior_str (text : string) (p : prior) : res string :=
  match p with
  | PGaussian s mu sigma =>
      or_repr (do tex <- label_of s; Ok ("Gaussian prior on " ++ tex ++ ": $" ++ num mu ++ " \pm " ++ num sigma ++ "$ \\")) (prior_repr p)
  | PEcc pl lims => do tex <- ecc_labels; do msg <- ecc_lines tex pl lims ""; Ok (drop5 msg)
  | PPosK _ => Ok "$K$ constrained to be $>0$"
  | PHard s a b =>
      or_repr (do tex <- label_of s; Ok ("Bounded prior: $" ++ show a ++ " < " ++ no_dollar tex ++ " < " ++ show b ++ "$")) (prior_repr p)
  | PSecEcl _ ts err => Ok (drop5 ("secondary eclipse prior: $" ++ num ts ++ " \pm " ++ num err ++ "$ \\\\" ++ nl))
  | PJeffreys s a b _ =>
      or_repr (do tex <- label_of s; Ok ("Jeffrey's prior: $" ++ num a ++ " < " ++ no_dollar tex ++ " < " ++ num b ++ "$")) (prior_repr p)
  | PModJeffreys s a b k _ =>
      or_repr (do tex <- label_of s; Ok ("Modified Jeffrey's prior: knee = " ++ num k ++ "; $" ++ num a ++ " < " ++ no_dollar tex ++ " < " ++ num b ++ "$")) (prior_repr p)
  | PNumerical pl _ _ =>
      or_repr (do tex <- labels_of pl; do s <- name_list pl (map snd tex);
               Ok ("Numerical prior on " ++ s ++ ", defined using Gaussian kernel density estimation.")) (prior_repr p)
  | PBaseline _ _ _ => Ok (prior_repr p)
  | PUser _ _ _ | PCustom _ _ _ _ _ => Ok text
  end.

(** s.endswith(t) *)
Fixpoint endswith (s t : string) : bool := String.eqb s t || match s with "" => false | String _ r => endswith r t end.
(** tab_prior_summary: rows, report.py:282-289.  [pp], [letters] and [keys] belong to the parameters of the fit, whose labels are
    worked out but not used *)
Definition tab_prior_summary (pp : list string) (letters : option (list (nat * string))) (keys : list string) (priors : list (prior * string)) : res (list string) :=
  do _ <- tex_labels pp letters keys;
  map_res (fun '(p, text) => do row <- prior_str text p; Ok (if endswith row "\\" then row else row ++ "\\")) priors.
End Show.
