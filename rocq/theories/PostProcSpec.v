(** What the theorems on the post-processing of samples (C65) are stated with. *)
From Coq Require Import ZArith Reals String Arith List.
From Verif Require Import Py PyFloat Params ParamsSpec Basis Likelihood LikeSpec LikeProofs LikeHist Fitting Format Stats PostProc.
Import ListNotations.
Open Scope R_scope.

(** parameter [k] is held fixed at [x] *)
Definition fixed_at (d idx : dict nat) (v : list row) (k : string) (x : R) : Prop :=
  In k (dkeys d) /\ exists i r, dget idx k = Some i /\ nth_error v i = Some r /\ r_vary r = false /\ r_val r = Some x.
(** the value of parameter [k] in each of the [n] samples *)
Definition samples_of (d idx : dict nat) (v : list row) (chains : table) (k : string) (col : list R) : Prop :=
  (exists x, fixed_at d idx v k x /\ col = repeat x (t_len chains)) \/
  ((forall x, ~ fixed_at d idx v k x) /\ dget (t_cols chains) k = Some col).
(** the value of parameter [k] in the rows [v] *)
Definition value_in (idx : dict nat) (v : list row) (k : string) (x : R) : Prop :=
  exists i r, dget idx k = Some i /\ nth_error v i = Some r /\ r_val r = Some x.
(** names of the five elements of a planet *)
Definition FIVE := ["per"; "tp"; "e"; "w"; "k"]%string.
Definition element_key (num : nat) (k : string) : Prop := exists p n, In p FIVE /\ (1 <= n <= num)%nat /\ k = key p n.

(** what is reported for samples [col] and best value [best]: without spread the values themselves,
    otherwise the values rounded to the two significant digits of half the 68 per cent interval *)
Definition reported_for (dexp : R -> Z) (ends0 : R -> bool) (fuel : nat) (col : list R) (best : R) (out : R * R * R) : Prop :=
  let spread := (quantile (841 / 1000) col - quantile (159 / 1000) col) / 2 in
  let err := round_sig spread 2 in
  col <> [] /\
  (err <= 0 -> out = (err, quantile (1 / 2) col, best)) /\
  (0 < err -> exists med e1 e2 best' e3 e4,
     sigfig dexp ends0 fuel (quantile (1 / 2) col) err None = Ok (med, e1, e2) /\
     sigfig dexp ends0 fuel best e1 None = Ok (best', e3, e4) /\ out = (e3, med, best')).

(** [cols]: columns of the chain.  In [v1] the rows of the chain's parameters hold the medians of their
    columns, all other rows are as in [v] *)
Definition medians_in (d idx : dict nat) (cols : dict (list R)) (v v1 : list row) : Prop :=
  (forall k col i, In (k, col) cols -> In k (dkeys d) -> dget idx k = Some i ->
     exists r, nth_error v i = Some r /\ nth_error v1 i = Some (mkRow (Some (quantile (1 / 2) col)) (r_vary r) (r_scale r) (r_lin r))) /\
  (forall i, (forall k col, In (k, col) cols -> In k (dkeys d) -> dget idx k <> Some i) -> nth_error v1 i = nth_error v i).

(** the posterior and the statistics write only the rows [G] (marginalised offsets, C20), which are not
    varied and not looked at; cached index lists are current; no two parameters share a row *)
Record fit_ready (G : nat -> Prop) (lp : list row -> list row * res ext) (stats : list row -> list row * res unit)
    (d idx : dict nat) (chains : table) (s : fitst) : Prop := {
  fr_frame : frame_ok G (f_rows s) lp;
  fr_blind : blind_to G (f_rows s) lp;
  fr_stats : frame_ok G (f_rows s) stats;
  fr_fixed : forall i, G i -> ~ is_free (f_rows s) i;
  fr_cp : cache_fresh (f_cp s) (f_rows s);
  fr_cl : cache_fresh (f_cl s) (f_rows s);
  fr_cols : NoDup (dkeys (t_cols chains));
  fr_inj : forall k k' i, In k (dkeys d) -> In k' (dkeys d) -> dget idx k = Some i -> dget idx k' = Some i -> k = k' }.
