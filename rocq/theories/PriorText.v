(** Model of Prior.__repr__ of every class of radvel/prior.py, the text a posterior prints for it:
    prior.py:19-20, 46-50, 81-86, 163-164, 233-237, 266-270, 345-349, 401-405, 470-474, 547-551, 583-587.

    [show] is Python's '{}'.format of a number, any function; [text] is the description of a user's own class.  In the text
    of a list of names each is between single quotes (Python's repr of a name without quote or backslash). *)
From Coq Require Import Reals String Ascii Arith Bool List.
From Verif Require Import Py PyFloat Params ParTable Prior PriorTab.
Import ListNotations.
Open Scope string_scope.

(** '{}'.format(list of names) *)
Definition names_text (l : list string) : string := "[" ++ String.concat ", " (map (fun s => "'" ++ s ++ "'") l) ++ "]".

Section Show.
Variable show : ext -> string.

(** EccentricityPrior.__repr__, the loop of prior.py:83-84 *)
Fixpoint ecc_text (pl : list nat) (lims : list R) (msg : string) : res string :=
  match pl with
  | [] => Ok msg
  | n :: pl' =>
      match lims with
      | [] => Err IndexError
      | u :: lims' => ecc_text pl' lims' (msg ++ "e" ++ str_nat n ++ " constrained to be < " ++ num show u ++ nl)
      end
  end.

Definition description (text : string) (p : prior) : res string :=
  match p with
  | PGaussian _ _ _ | PHard _ _ _ | PJeffreys _ _ _ _ | PModJeffreys _ _ _ _ _ | PBaseline _ _ _ => Ok (prior_repr show p)
  | PEcc pl lims => do msg <- ecc_text pl lims ""; Ok (butlast msg)
  | PPosK _ => Ok "K constrained to be > 0"
  | PSecEcl _ ts err => Ok (butlast ("secondary eclipse constraint: " ++ num show ts ++ " +/- " ++ num show err ++ nl))
  | PNumerical pl _ _ => Ok ("Numerical prior on " ++ names_text pl)
  | PUser pl _ _ => Ok ("User-defined prior on " ++ names_text pl)
  | PCustom _ _ _ _ _ => Ok text
  end.
End Show.
