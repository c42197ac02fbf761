(** Property theorems C81: several tables in one run, and the document of a report. *)
From Coq Require Import ZArith Reals String Arith Bool Lra Lia List.
From Verif Require Import Py PyFloat Params ParamsSpec Basis Stats PostProc ParTable ParTableSpec Derive DerivTab DerivTabSpec CompTable RvTab Pipeline TexLabels RepChains RepChainsSpec ExRepChains TabRun TabRunSpec TabRunProofs TabRunThms TabRunEx.
From Verif Require RvTabSpec RvTabProofs.
Import ListNotations.
Open Scope R_scope.
Open Scope string_scope.

(** * C81 *)
(** A further report made in the same run, from the posterior and the chain the first has changed, has the same samples and
    the same labels. *)
Theorem C81_again : forall h ps fb chains h1 q cols labels, reported h ps fb chains h1 q cols labels ->
  exists l2, further h1 q fb chains = Ok (cols, l2) /\ forall k, dget l2 k = dget labels k.
Proof. exact further_same. Qed.
Print Assumptions C81_again.

Example C81_again_ex : exists h1 q cols labels, reported xr_h xr_ps xr_b xr_chains h1 q cols labels.
Proof. exact xt_reported. Qed.

(** Every table but the derived one that a run writes is the one that is made if no other is asked for; files of other
    tables stay as they were. *)
Theorem C81_alone_partial : forall T setorder geterr of_quantiles show two_digits nplanets letters nulls suffixes fb extra names priors x y yerr telvec minafactor maxarchange maxgr mintz
    has_run ic h ps planet_fb chains h1 q s0,
  plain_names fb extra names suffixes -> reported h ps planet_fb chains h1 q (x_chains s0) (x_latex s0) -> x_quant s0 = DerivTab.quantiles (x_chains s0) ->
  let again := further h1 q planet_fb chains in
  let one := one_tab T setorder geterr of_quantiles show two_digits nplanets letters nulls suffixes fb extra names priors x y yerr telvec minafactor maxarchange maxgr mintz has_run ic again in
  let run := tables_run T setorder geterr of_quantiles show two_digits nplanets letters nulls suffixes fb extra names priors x y yerr telvec minafactor maxarchange maxgr mintz has_run ic again in
  forall types files files' s', run types s0 files = (files', Ok s') -> forall t, t <> TDerived ->
  (In t types -> exists tb s1, one s0 t = Ok (tb, s1) /\ dget files' (ttext t) = Some tb) /\
  (~ In t types -> dget files' (ttext t) = dget files (ttext t)).
Proof. exact run_alone. Qed.
Print Assumptions C81_alone_partial.

(** A run asked for different tables, each of which can be made alone, makes them all. *)
Theorem C81_made : forall T setorder geterr of_quantiles show two_digits nplanets letters nulls suffixes fb extra names priors x y yerr telvec minafactor maxarchange maxgr mintz
    has_run ic h ps planet_fb chains h1 q s0,
  plain_names fb extra names suffixes -> reported h ps planet_fb chains h1 q (x_chains s0) (x_latex s0) -> x_quant s0 = DerivTab.quantiles (x_chains s0) ->
  let again := further h1 q planet_fb chains in
  let one := one_tab T setorder geterr of_quantiles show two_digits nplanets letters nulls suffixes fb extra names priors x y yerr telvec minafactor maxarchange maxgr mintz has_run ic again in
  let run := tables_run T setorder geterr of_quantiles show two_digits nplanets letters nulls suffixes fb extra names priors x y yerr telvec minafactor maxarchange maxgr mintz has_run ic again in
  forall types files, NoDup types -> (forall t, In t types -> exists tb s1, one s0 t = Ok (tb, s1)) -> exists files' s', run types s0 files = (files', Ok s').
Proof. exact run_made. Qed.
Print Assumptions C81_made.

Example C81_made_ex : exists h1 q s0 files' s', reported xr_h xr_ps xr_b xr_chains h1 q (x_chains s0) (x_latex s0) /\ x_quant s0 = DerivTab.quantiles (x_chains s0) /\
  tables_run unit (fun l => l) xm_nofail (fun _ => tt) xm_text (fun _ => "") 2 None [] ["_j"] print_basis xt_extra xt_extra (Ok []) [] [] [] [] None None None None
    true (Some (Ok [mkStats (Fin 1) (Ok "best")])) (further h1 q xr_b xr_chains) [TIc; TCrit; TParams; TPriors] s0 [] = (files', Ok s').
Proof.
  destruct xt_reported as (h1 & q & cols & labels & RP). exists h1, q, (mkTex true cols (DerivTab.quantiles cols) labels [] report_units None).
  match goal with |- exists _ _, _ /\ _ /\ tables_run ?T ?so ?ge ?oq ?sh ?td ?np ?le ?nu ?su ?fb ?ex ?na ?pr ?x ?y ?ye ?te ?m1 ?m2 ?m3 ?m4 ?hr ?ic _ ?ty ?s0 ?fi = _ =>
    destruct (C81_made T so ge oq sh td np le nu su fb ex na pr x y ye te m1 m2 m3 m4 hr ic xr_h xr_ps xr_b xr_chains h1 q s0 xt_plain RP eq_refl ty fi) as (fl & sl & E) end.
  - repeat constructor; cbn; intuition discriminate.
  - intros t [<-|[<-|[<-|[<-|[]]]]]; cbn [one_tab].
    + destruct (C81_again _ _ _ _ _ _ _ _ RP) as (l2 & -> & _). cbn [bind]. unfold comp_tab. cbn [x_comp]. do 2 eexists. cbn. reflexivity.
    + do 2 eexists. reflexivity.
    + destruct (xm_params 2 ["_j"] print_basis xt_extra xt_extra (mkTex true cols (DerivTab.quantiles cols) labels [] report_units None)) as [tb ->]. cbn [bind]. eauto.
    + do 2 eexists. reflexivity.
  - exists fl, sl. auto.
Qed.

Example C81_alone_ex : plain_names print_basis xt_extra xt_extra ["_j"] /\ exists h1 q cols labels, reported xr_h xr_ps xr_b xr_chains h1 q cols labels.
Proof. exact (conj xt_plain xt_reported). Qed.

(** The derived table is the one made alone if it is asked for once, and before the comparison of models. *)
Theorem C81_derived_partial : forall T setorder geterr of_quantiles show two_digits nplanets letters nulls suffixes fb extra names priors x y yerr telvec minafactor maxarchange maxgr mintz has_run ic again a b s files files' s',
  ~ In TIc a -> ~ In TDerived a -> ~ In TDerived b ->
  tables_run T setorder geterr of_quantiles show two_digits nplanets letters nulls suffixes fb extra names priors x y yerr telvec minafactor maxarchange maxgr mintz has_run ic again (a ++ TDerived :: b) s files = (files', Ok s') ->
  exists tb s1, one_tab T setorder geterr of_quantiles show two_digits nplanets letters nulls suffixes fb extra names priors x y yerr telvec minafactor maxarchange maxgr mintz has_run ic again s TDerived = Ok (tb, s1) /\
    dget files' (ttext TDerived) = Some tb.
Proof. exact tables_derived. Qed.
Print Assumptions C81_derived_partial.

Example C81_derived_ex : exists s',
  tables_run (R * R * R) (nodup string_dec) xm_err (fun q => q) xm_show (fun _ => "") 1 None [] [] "" [] [] (Ok []) [] [] [] [] None None None None true None (Err RuntimeError) ([TCrit] ++ TDerived :: []) (xm_tex 500) [] =
  ([("crit", TabCrit (tab_crit None None None None)); ("derived", TabDerived (Some [xm_row "small" JUP]))], Ok s').
Proof.
  destruct (derived_first (fun _ => "") "" [] [] (Ok []) [] [] [] [] None None None None None (Err RuntimeError) [("crit", TabCrit (tab_crit None None None None))]) as (s' & E). exists s'. exact E.
Qed.

(** Asked for twice in one run, it shows the masses divided twice: 500 Earth masses as a small number of Earth masses. *)
Theorem C81_twice_refuted : forall two_digits fb extra names priors x y yerr telvec minafactor maxarchange maxgr mintz ic again files,
  let run := tables_run (R * R * R) (nodup string_dec) xm_err (fun q => q) xm_show two_digits 1 None [] [] fb extra names priors x y yerr telvec minafactor maxarchange maxgr mintz true ic again in
  (exists s', run [TDerived] (xm_tex 500) files = (dset files "derived" (TabDerived (Some [xm_row "small" JUP])), Ok s')) /\
  exists files' s', run [TDerived; TDerived] (xm_tex 500) files = (files', Ok s') /\ dget files' "derived" = Some (TabDerived (Some [xm_row "small" EARTH])).
Proof. intros. exact (conj (derived_first _ _ _ _ _ _ _ _ _ _ _ _ _ _ _ _) (derived_twice _ _ _ _ _ _ _ _ _ _ _ _ _ _ _ _)). Qed.
Print Assumptions C81_twice_refuted.

(** Asked for after the comparison of models, it is an empty file, and no exception tells so. *)
Theorem C81_after_refuted : forall two_digits fb extra names priors x y yerr telvec minafactor maxarchange maxgr mintz c l rows comp files, tab_comparison two_digits (Some comp) = Ok rows ->
  exists files' s', tables_run (R * R * R) (nodup string_dec) xm_err (fun q => q) xm_show two_digits 1 None [] [] fb extra names priors x y yerr telvec minafactor maxarchange maxgr mintz
    true (Some (Ok comp)) (Ok (c, l)) [TIc; TDerived] (xm_tex 500) files = (files', Ok s') /\ dget files' "derived" = Some (TabDerived None).
Proof. exact derived_after. Qed.
Print Assumptions C81_after_refuted.

Example C81_after_ex : exists rows, tab_comparison (fun _ => "") (Some [mkStats (Fin 1) (Ok "best")]) = Ok rows.
Proof. eexists. cbn. reflexivity. Qed.

(** The tables of a report are those of the tables' command, with at most fifty velocities; a comparison is there iff there
    are statistics. *)
Theorem C81_document : forall T setorder geterr of_quantiles show two_digits nplanets letters nulls suffixes fb extra names priors x y yerr telvec minafactor maxarchange maxgr mintz has_run ic again exists_file runname s d,
  let one := one_tab T setorder geterr of_quantiles show two_digits nplanets letters nulls suffixes fb extra names priors x y yerr telvec minafactor maxarchange maxgr mintz in
  texdoc T setorder geterr of_quantiles show two_digits nplanets letters nulls suffixes fb extra names priors x y yerr telvec minafactor maxarchange maxgr mintz exists_file runname s = Ok d ->
  (exists s1, one has_run ic again s TParams = Ok (o_params d, s1)) /\ (exists s1, one has_run ic again s TPriors = Ok (o_priors d, s1)) /\ (exists s1, one has_run ic again s TCrit = Ok (o_crit d, s1)) /\
  (exists s1, one true ic again s TDerived = Ok (o_derived d, s1)) /\
  (exists rows note, tab_rv (Some 50) x y yerr telvec = Ok (rows, note) /\ o_rv d = TabRv rows note) /\
  match x_comp s with
  | None => o_comparison d = None
  | Some cs => exists tb, o_comparison d = Some tb /\ forall c l, exists s1, one has_run (Some (Ok cs)) (Ok (c, l)) s TIc = Ok (tb, s1)
  end.
Proof. exact document_tables. Qed.
Print Assumptions C81_document.

(** The table of velocities made by the tables' command has them all, in order. *)
Theorem C81_velocities : forall T setorder geterr of_quantiles show two_digits nplanets letters nulls suffixes fb extra names priors os minafactor maxarchange maxgr mintz has_run ic again s,
  exists rows, one_tab T setorder geterr of_quantiles show two_digits nplanets letters nulls suffixes fb extra names priors (map RvTabSpec.o_t os) (map RvTabSpec.o_v os) (map RvTabSpec.o_e os) (map RvTabSpec.o_inst os) minafactor maxarchange maxgr mintz has_run ic again s TRv
    = Ok (TabRv rows "", s) /\ Forall2 RvTabSpec.row_of rows os.
Proof. exact velocity_table. Qed.
Print Assumptions C81_velocities.

Example C81_velocities_ex : exists rows, Forall2 RvTabSpec.row_of rows [RvTabSpec.mkObs 1 2 3 "a"; RvTabSpec.mkObs 4 5 6 "b"] /\ length rows = 2%nat.
Proof. destruct (RvTabProofs.rows_all [RvTabSpec.mkObs 1 2 3 "a"; RvTabSpec.mkObs 4 5 6 "b"]) as (rows & _ & F). exists rows. split; [exact F|]. change 2%nat with (length [RvTabSpec.mkObs 1 2 3 "a"; RvTabSpec.mkObs 4 5 6 "b"]). induction F; cbn [length]; congruence. Qed.

(** Its figures are those of the three kinds that exist, each once. *)
Theorem C81_figures : forall T setorder geterr of_quantiles show two_digits nplanets letters nulls suffixes fb extra names priors x y yerr telvec minafactor maxarchange maxgr mintz exists_file runname s d,
  texdoc T setorder geterr of_quantiles show two_digits nplanets letters nulls suffixes fb extra names priors x y yerr telvec minafactor maxarchange maxgr mintz exists_file runname s = Ok d ->
  NoDup (o_figures d) /\
  forall k f, In (k, f) (o_figures d) <-> exists t, In t ["rv_multipanel"; "corner"; "corner_derived_pars"] /\ k = "fig_" ++ t /\ f = runname ++ "_" ++ t ++ ".pdf" /\ exists_file f = true.
Proof. exact document_figures. Qed.
Print Assumptions C81_figures.

(** A report can be made if its tables can. *)
Theorem C81_document_made : forall T setorder geterr of_quantiles show two_digits nplanets letters nulls suffixes fb extra names priors x y yerr telvec minafactor maxarchange maxgr mintz exists_file runname s,
  let one := one_tab T setorder geterr of_quantiles show two_digits nplanets letters nulls suffixes fb extra names priors x y yerr telvec minafactor maxarchange maxgr mintz true None (Err RuntimeError) in
  (forall t, In t [TParams; TPriors] -> exists tb s1, one s t = Ok (tb, s1)) -> (exists tb s1, one s TDerived = Ok (tb, s1)) -> (exists rv, tab_rv (Some 50) x y yerr telvec = Ok rv) ->
  (forall cs, x_comp s = Some cs -> exists rows, tab_comparison two_digits (Some cs) = Ok rows) ->
  exists d, texdoc T setorder geterr of_quantiles show two_digits nplanets letters nulls suffixes fb extra names priors x y yerr telvec minafactor maxarchange maxgr mintz exists_file runname s = Ok d.
Proof. exact document_made. Qed.
Print Assumptions C81_document_made.

Example C81_document_ex : exists d,
  texdoc unit (fun l => l) xm_nofail (fun _ => tt) xm_text (fun _ => "") 2 None [] ["_j"] print_basis xt_extra xt_extra (Ok []) [] [] [] [] None None None None (fun f => String.eqb f "k2_corner.pdf") "k2"
    (mkTex false [] [] [] [] report_units (Some [mkStats (Fin 1) (Ok "best")])) = Ok d /\ o_figures d = [("fig_corner", "k2_corner.pdf")].
Proof.
  match goal with |- exists _, texdoc ?T ?so ?ge ?oq ?sh ?td ?np ?le ?nu ?su ?fb ?ex ?na ?pr ?x ?y ?ye ?te ?m1 ?m2 ?m3 ?m4 ?xf ?rn ?s = _ /\ _ =>
    destruct (C81_document_made T so ge oq sh td np le nu su fb ex na pr x y ye te m1 m2 m3 m4 xf rn s) as [d E] end.
  - intros t [<-|[<-|[]]]; cbn [one_tab].
    + match goal with |- context [params_tab _ _ _ _ _ _ _ _ _ ?s] => destruct (xm_params 2 ["_j"] print_basis xt_extra xt_extra s) as [tb ->] end. cbn [bind]. eauto.
    + do 2 eexists. reflexivity.
  - do 2 eexists. reflexivity.
  - unfold tab_rv, range_to. cbn [length]. cbn [seq]. rewrite firstn_nil. eexists. reflexivity.
  - intros cs Q. injection Q as <-. eexists. cbn. reflexivity.
  - exists d. split; [exact E|]. unfold texdoc in E. repeat match type of E with bind ?z _ = _ => destruct z as [?|]; [|discriminate]; cbn [bind] in E | (let '(_, _) := ?z in _) = _ => destruct z end. injection E as <-. reflexivity.
Qed.
