(** Model of the samples a report is made from: RadvelReport.__init__, radvel/report.py:67-86, with
    Basis.from_synth applied to a table of samples, basis.py:488-571, and the joining of the derived
    parameters, driver.py:717-719.

    Numbers are real.  A parameter without value (None) makes the model stop where pandas would make
    a column of None.  Only the print basis is modelled as target of the conversion of a table.  The
    two tables that are joined have the same number of rows (see C61 for the files). *)
From Coq Require Import ZArith Reals String Arith Bool List.
From Verif Require Import Py PyFloat Params Basis Kepler Stats PostProc ParTable Derive.
Import ListNotations.
Open Scope R_scope.
Open Scope string_scope.

(** chains.join(dchains, rsuffix='_derived'), driver.py:719: a column of the second table whose name is
    taken gets the suffix *)
Definition join_derived (t : table) (dcols : dict (list R)) : table :=
  mkTable (t_len t) (fold_left (fun o kc => dset o (if dmem (t_cols t) (fst kc) then fst kc ++ "_derived" else fst kc) (snd kc)) dcols (t_cols t)).

(** report.py:73-75 *)
Definition missing_step (h : heap) (d : dict nat) (t : table) (par : string) : res table :=
  if dmem (t_cols t) par then Ok t
  else match get_param h d par with
       | None => Err (KeyError par)
       | Some p =>
           match p_value p with
           | Some x => Ok (mkTable (t_len t) (dset (t_cols t) par (repeat x (t_len t))))
           | None => Err TypeError
           end
       end.
Definition fill_missing (h : heap) (d : dict nat) (t : table) : res table := for_each (dkeys d) (missing_step h d) t.

(** the value assigned to [p] by a list of assignments *)
Definition assigned (sets : list (string * R)) (p : string) : R := match dget sets p with Some x => x | None => 0 end.
(** Basis.from_synth for a DataFrame and the print basis, basis.py:511-571: entry by entry.  The first
    line asks for the columns also if there are no rows.  (For a DataFrame nothing is deleted.) *)
Definition print_step (t : table) (out : dict (list R)) (n : nat) : res (dict (list R)) :=
  do first <- from_synth_of print_basis true (entry t 0 n);
  do rows <- map_res (fun i => from_synth_of print_basis true (entry t i n)) (seq 0 (t_len t));
  Ok (fold_left (fun o p => dset o (key p n) (map (fun r => assigned (fst r) p) rows)) (map fst (fst first)) out).
Definition print_table (num : nat) (t : table) : res (dict (list R)) := for_each (seq 1 num) (print_step t) (t_cols t).

(** report.py:77-82: [fb] is planet.fitting_basis, [q] the parameters in the print basis *)
Definition report_chains (h : heap) (q : params) (fb : string) (chains : table) : res (dict (list R)) :=
  do t <- fill_missing h (ps_items q) chains;
  do synth <- to_synth_table fb (b_num (ps_basis q)) t;
  print_table (b_num (ps_basis q)) (mkTable (t_len t) synth).

(** report.py:87: quantiles of every column *)
Definition quantiles (cols : dict (list R)) : dict (R * R * R) := map (fun kc => (fst kc, three_quantiles (snd kc))) cols.

(** RadvelReport.__init__, report.py:67-87 *)
Definition report_init (h : heap) (ps : params) (fb : string) (chains : table) : res (heap * params * dict (list R) * dict (R * R * R)) :=
  do (h', q) <- report_params h ps;
  match q with
  | None => Err AttributeError
  | Some q => do cols <- report_chains h' q fb chains; Ok (h', q, cols, quantiles cols)
  end.
