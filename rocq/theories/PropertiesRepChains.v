(** Property theorems C74: the samples a report is made from. *)
From Coq Require Import Reals String Arith Bool List.
From Verif Require Import Py Params ParamsSpec Basis BasisThms PostProc Derive RepChains RepChainsSpec RepChainsThms ExRepChains.
Import ListNotations.
Open Scope R_scope.
Open Scope string_scope.

(** * C74 *)
(** A report can be made from every chain.  For every planet it has the six printed elements, each computed
    sample by sample from the fitted parameters of that planet; a parameter that was not sampled has its best
    value.  All other columns are those of the chain, and a constant for parameters that were not sampled. *)
Theorem C74_columns : forall h ps b names chains, params_ok h ps b names -> all_values h ps -> forall val,
  (forall n, (1 <= n <= ps_num ps)%nat -> values_in_range names (val n) /\ holds h ps names n (val n)) ->
  exists h' q cols, report_init h ps b chains = Ok (h', q, cols, quantiles cols) /\
    (forall n p, (1 <= n <= ps_num ps)%nat -> In p PRINTED -> exists col, dget cols (key p n) = Some col /\ length col = t_len chains /\
       forall i, (i < t_len chains)%nat -> exists vals, (forall s, In s names -> sample_value chains h ps i (key s n) (vals s)) /\ nth i col 0 = meaning (els b vals) p) /\
    (forall k, ~ printed_key (ps_num ps) k ->
       (forall col, dget (t_cols chains) k = Some col -> dget cols k = Some col) /\
       (~ In k (dkeys (t_cols chains)) -> forall x, value_at h ps k = Some x -> dget cols k = Some (repeat x (t_len chains))) /\
       (~ In k (dkeys (t_cols chains)) -> ~ In k (dkeys (ps_items ps)) -> dget cols k = None)).
Proof. exact report_main. Qed.
Print Assumptions C74_columns.

Example C74_columns_ex : exists h' q cols col, report_init xr_h xr_ps xr_b xr_chains = Ok (h', q, cols, quantiles cols) /\
  dget cols "tp1" = Some col /\ length col = 2%nat /\ dget cols "gamma_j" = Some [3; 3] /\ dget cols "lnprobability" = Some [-1; -2].
Proof.
  destruct (C74_columns xr_h xr_ps xr_b xr_names xr_chains xr_ok xr_all xr_val xr_holds) as (h' & q & cols & E & A & B).
  destruct (A 1%nat "tp") as (col & D & L & _); [cbn; auto|cbn; tauto|]. exists h', q, cols, col. split; [exact E|]. split; [exact D|]. split; [exact L|].
  destruct (B "gamma_j") as (_ & B1 & _). { intros (p & n & Hp & _ & K). cbn in Hp. repeat destruct Hp as [<-|Hp]; try contradiction; discriminate K. }
  destruct (B "lnprobability") as (B2 & _ & _). { intros (p & n & Hp & _ & K). cbn in Hp. repeat destruct Hp as [<-|Hp]; try contradiction; discriminate K. }
  split; [apply B1; [cbn; intuition discriminate|reflexivity]|apply B2; reflexivity].
Qed.

(** Printed elements that are parameters of the fit are those that were sampled, or held fixed. *)
Theorem C74_fitted : forall h ps b names chains val, params_ok h ps b names -> all_values h ps -> table_ok chains ->
  (forall n, (1 <= n <= ps_num ps)%nat -> values_in_range names (val n) /\ holds h ps names n (val n)) ->
  (forall n col x, dget (t_cols chains) (key "se" n) = Some col -> In x col -> 0 <= x) ->
  exists h' q cols, report_init h ps b chains = Ok (h', q, cols, quantiles cols) /\
  forall n p, (1 <= n <= ps_num ps)%nat -> In p names ->
    (forall col, dget (t_cols chains) (key p n) = Some col -> dget cols (key p n) = Some col) /\
    (~ In (key p n) (dkeys (t_cols chains)) -> dget cols (key p n) = Some (repeat (val n p) (t_len chains))).
Proof. exact report_fitted. Qed.
Print Assumptions C74_fitted.

Example C74_fitted_ex : exists h' q cols, report_init xr_h xr_ps xr_b xr_chains = Ok (h', q, cols, quantiles cols) /\
  dget cols "per1" = Some [10; 11] /\ dget cols "k2" = Some [4; 6] /\ dget cols "tc2" = Some [meaning (ex_E 2) "tc"; meaning (ex_E 2) "tc"].
Proof.
  destruct (C74_fitted xr_h xr_ps xr_b xr_names xr_chains xr_val xr_ok xr_all xr_table xr_holds xr_se) as (h' & q & cols & E & A).
  exists h', q, cols. split; [exact E|]. split; [|split].
  - destruct (A 1%nat "per") as [B _]; [cbn; auto|cbn; tauto|apply B; reflexivity].
  - destruct (A 2%nat "k") as [B _]; [cbn; auto|cbn; tauto|apply B; reflexivity].
  - destruct (A 2%nat "tc") as [_ B]; [cbn; auto|cbn; tauto|apply B; cbn; intuition discriminate].
Qed.

(** Derived parameters are reported as they were derived. *)
Theorem C74_derived : forall h ps b names chains dcols val, params_ok h ps b names -> all_values h ps ->
  (forall n, (1 <= n <= ps_num ps)%nat -> values_in_range names (val n) /\ holds h ps names n (val n)) -> NoDup (dkeys dcols) ->
  exists h' q cols, report_init h ps b (join_derived chains dcols) = Ok (h', q, cols, quantiles cols) /\
  forall k col, dget dcols k = Some col -> ~ In k (dkeys (t_cols chains)) -> ~ printed_key (ps_num ps) k -> (forall k', In k' (dkeys dcols) -> k <> k' ++ "_derived") ->
    dget cols k = Some col /\ dget (quantiles cols) k = Some (three_quantiles col).
Proof. exact report_derived. Qed.
Print Assumptions C74_derived.

Example C74_derived_ex : exists h' q cols, report_init xr_h xr_ps xr_b (join_derived xr_chains xr_derived) = Ok (h', q, cols, quantiles cols) /\ dget cols "mpsini1" = Some [7; 8].
Proof.
  destruct (C74_derived xr_h xr_ps xr_b xr_names xr_chains xr_derived xr_val xr_ok xr_all xr_holds xr_nodup) as (h' & q & cols & E & A).
  exists h', q, cols. split; [exact E|]. apply (A "mpsini1" [7; 8]).
  - reflexivity.
  - cbn. intuition discriminate.
  - intros (p & n & Hp & _ & K). cbn in Hp. repeat destruct Hp as [<-|Hp]; try contradiction; discriminate K.
  - intros k' [<-|[<-|[]]]; discriminate.
Qed.

(** Quantiles are those of the column of the same name. *)
Theorem C74_quantiles : forall cols k, dget (quantiles cols) k = option_map (fun l => (quantile (159 / 1000) l, quantile (1 / 2) l, quantile (841 / 1000) l)) (dget cols k).
Proof. exact quantiles_get. Qed.
Print Assumptions C74_quantiles.

Example C74_quantiles_ex : dget (quantiles [("a", [1; 2])]) "b" = None.
Proof. reflexivity. Qed.
