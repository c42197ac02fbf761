(** Model of sampling_postprocessing, radvel/driver.py:253-311, with Basis.to_synth applied to a
    table of samples, basis.py:227-399.

    Samples and parameter values are real numbers; the branch for log-values of minus infinity
    (driver.py:295-296) is not modelled.  Printing is not modelled.  When a step raises, the model
    keeps the state before that step. *)
From Coq Require Import ZArith Reals String Arith Bool List.
From Flocq Require Import Core.
From Verif Require Import Py PyFloat Params Basis Likelihood Fitting Format Stats.
Import ListNotations.
Open Scope R_scope.
Open Scope string_scope.

(** a DataFrame: number of rows and columns *)
Record table := mkTable { t_len : nat; t_cols : dict (list R) }.

(** DataFrame.quantile, one column: linear interpolation between the sorted entries *)
Definition quantile (q : R) (l : list R) : R :=
  let s := sort l in
  let h := INR (length l - 1) * q in
  let i := Z.to_nat (Zfloor h) in
  nth i s 0 + (h - INR i) * (nth (S i) s 0 - nth i s 0).

Section Steps.
  (** post.params and post.vector.indices *)
  Variables (d idx : dict nat).

  (** driver.py:255-258: a column with the value of every fixed parameter.  A value None (nan) makes
      round_sig raise later. *)
  Definition fill_step (v : list row) (t : table) (par : string) : res table :=
    do i <- dget_res idx par;
    match nth_error v i with
    | None => Err IndexError
    | Some r =>
        if r_vary r then Ok t
        else match r_val r with
             | Some x => Ok (mkTable (t_len t) (dset (t_cols t) par (repeat x (t_len t))))
             | None => Err ValueError
             end
    end.
  Definition fill_fixed (v : list row) (t : table) : res table := for_each (dkeys d) (fill_step v) t.

  (** driver.py:267-269 *)
  Definition median_step (v : list row) (kc : string * list R) : res (list row) :=
    if dmem d (fst kc) then
      do i <- dget_res idx (fst kc);
      match nth_error v i with
      | None => Err IndexError
      | Some _ => Ok (setval v i (Some (quantile (1 / 2) (snd kc))))
      end
    else Ok v.
  Definition set_medians (cols : dict (list R)) (v : list row) : res (list row) := for_each cols median_step v.
End Steps.

(** params_in['{}{}'.format(key, num_planet)], entry [i], basis.py:249-251 *)
Definition entry (t : table) (i n : nat) (p : string) : res R :=
  do c <- dget_res (t_cols t) (key p n); Ok (nth i c 0).
Definition el_get (p : string) (el : R * R * R * R * R) : R :=
  let '(per, tp, e, w, k) := el in
  if String.eqb p "per" then per else if String.eqb p "tp" then tp else if String.eqb p "e" then e else if String.eqb p "w" then w else k.
(** Basis.to_synth for a DataFrame, basis.py:227-399: entry by entry.  (timetrans_to_timeperi on a
    column does not take its branch for e >= 1, so samples with e >= 1 are outside the model.)
    The first line asks for the columns also if there are no rows. *)
Definition synth_step (name : string) (t : table) (out : dict (list R)) (n : nat) : res (dict (list R)) :=
  do _ <- synth_of name (entry t 0 n);
  do els <- map_res (fun i => synth_of name (entry t i n)) (seq 0 (t_len t));
  Ok (fold_left (fun o p => dset o (key p n) (map (el_get p) els)) ["per"; "tp"; "e"; "w"; "k"] out).
Definition to_synth_table (name : string) (num : nat) (t : table) : res (dict (list R)) :=
  for_each (seq 1 num) (synth_step name t) (t_cols t).

Section Post.
  (** Decimal and str of a float (see Format.v) *)
  Variables (dexp : R -> Z) (ends0 : R -> bool) (fuel : nat).

  (** driver.py:289-303 for one parameter: uncertainty, median, best value *)
  Definition summarise (col : list R) (best : R) : res (R * R * R) :=
    match col with
    | [] => Err ValueError
    | _ =>
        let med := quantile (1 / 2) col in
        let high := quantile (841 / 1000) col - med in
        let low := med - quantile (159 / 1000) col in
        let err := round_sig ((high + low) / 2) 2 in
        if rltb 0 err then
          do (ml, _) <- sigfig dexp ends0 fuel med err None;
          do (bl, _) <- sigfig dexp ends0 fuel best (snd ml) None;
          Ok (snd bl, fst ml, fst bl)
        else Ok (err, med, best)
    end.
  (** driver.py:288-306: uparams, medparams, maxparams *)
  Definition summary_step (cols : dict (list R)) (h : heap) (items : dict nat) (out : dict (R * R * R)) (par : string) : res (dict (R * R * R)) :=
    match get_param h items par with
    | None => Err (KeyError par)
    | Some p =>
        match p_value p with
        | None => Err TypeError
        | Some best => do col <- dget_res cols par; do x <- summarise col best; Ok (dset out par x)
        end
    end.
  Definition summary (cols : dict (list R)) (h : heap) (items : dict nat) : res (dict (R * R * R)) :=
    for_each (dkeys items) (summary_step cols h items) [].

  (** post.logprob; residuals and chi-square, driver.py:279-283 *)
  Variables (lp : list row -> list row * res ext) (stats : list row -> list row * res unit).
  (** sampling_postprocessing, driver.py:253-311 *)
  Definition postprocess (ps : params) (idx : dict nat) (optimiser : list (option R) -> opt) (chains : table) (s : fitst)
    : fitst * res (dict (R * R * R)) :=
    let d := ps_items ps in
    match (do t1 <- fill_fixed d idx (f_rows s) chains;
           do cols <- to_synth_table (b_name (ps_basis ps)) (b_num (ps_basis ps)) t1;
           do v1 <- set_medians d idx (t_cols chains) (f_rows s);
           do h1 <- vector_to_dict d idx v1 (f_heap s);
           Ok (cols, v1, h1)) with
    | Err e => (s, Err e)
    | Ok (cols, v1, h1) =>
        let '(s2, r2) := maxlike_fitting lp d idx optimiser false (mkFit v1 (f_cp s) (f_cl s) h1) in
        match r2 with
        | Err e => (s2, Err e)
        | Ok _ =>
            let '(v3, r3) := lp (f_rows s2) in
            let s3 := mkFit v3 (f_cp s2) (f_cl s2) (f_heap s2) in
            match r3 with
            | Err e => (s3, Err e)
            | Ok _ =>
                let '(v4, r4) := stats v3 in
                let s4 := mkFit v4 (f_cp s2) (f_cl s2) (f_heap s2) in
                match r4 with
                | Err e => (s4, Err e)
                | Ok _ =>
                    match vector_to_dict d idx v4 (f_heap s2) with
                    | Err e => (s4, Err e)
                    | Ok h5 =>
                        match to_synth h5 (ps_basis ps) ps true None with
                        | Err e => (mkFit v4 (f_cp s2) (f_cl s2) h5, Err e)
                        | Ok (h6, sp) => (mkFit v4 (f_cp s2) (f_cl s2) h6, summary cols h6 (ps_items sp))
                        end
                    end
                end
            end
        end
    end.
End Post.
