(** Theorems about several tables in one run and the document of a report (C81). *)
From Coq Require Import ZArith Reals String Ascii Arith Bool Lia Lra List.
From Verif Require Import Py PyFacts PyFloat Params Basis Kepler Likelihood Stats PostProc PostProcThms ParTable ParTableSpec ParTableProofs ParTableThms Derive DerivTab DerivTabSpec DerivTabProofs DerivTabThms CompTable RvTab Pipeline TexLabels RepChains TabRun TabRunSpec TabRunProofs TabAgain.
From Verif Require RvTabSpec RvTabProofs.
Import ListNotations.
Open Scope R_scope.
Open Scope string_scope.

Theorem further_same h ps fb chains h1 q cols labels : reported h ps fb chains h1 q cols labels -> exists l2, further h1 q fb chains = Ok (cols, l2) /\ forall k, dget l2 k = dget labels k.
Proof.
  intros [ND BN [qs E1] T1]. destruct (report_further _ _ _ _ _ _ _ _ _ ND BN E1 T1) as (t & h2 & q2 & l2 & F & E2 & T2 & K). exists l2. split; [|exact K]. unfold further. rewrite F. cbn [bind]. rewrite E2. cbn [bind]. rewrite T2. reflexivity.
Qed.

Section Run.
Variables (T : Type) (setorder : list string -> list string).
Variables (geterr : list R -> res T) (of_quantiles : R * R * R -> T) (show : T -> R -> option (R * R * R) -> res string).
Variables (two_digits : ext -> string).
Variables (nplanets : nat) (letters : option (list (nat * string))) (nulls suffixes : list string) (fb : string) (extra names : list string).
Variables (priors : res (list string)) (x y yerr : list R) (telvec : list string) (minafactor maxarchange maxgr mintz : option ext).
Notation one := (one_tab T setorder geterr of_quantiles show two_digits nplanets letters nulls suffixes fb extra names priors x y yerr telvec minafactor maxarchange maxgr mintz).
Notation run := (tables_run T setorder geterr of_quantiles show two_digits nplanets letters nulls suffixes fb extra names priors x y yerr telvec minafactor maxarchange maxgr mintz).
Notation document := (texdoc T setorder geterr of_quantiles show two_digits nplanets letters nulls suffixes fb extra names priors x y yerr telvec minafactor maxarchange maxgr mintz).

Section From.
Variables (has_run : bool) (ic : option (res (list stats))).
Variables (h : heap) (ps : params) (planet_fb : string) (chains : table) (h1 : heap) (q : params) (s0 : tex).
Hypothesis PN : plain_names fb extra names suffixes.
Hypothesis RP : reported h ps planet_fb chains h1 q (x_chains s0) (x_latex s0).
Hypothesis Q0 : x_quant s0 = DerivTab.quantiles (x_chains s0).
Notation again := (further h1 q planet_fb chains).

Lemma again_same c l : again = Ok (c, l) -> same_off c (x_chains s0) /\ same_off l (x_latex s0).
Proof. intro A. destruct (further_same _ _ _ _ _ _ _ _ RP) as (l2 & E & K). rewrite E in A. injection A as <- <-. split; intros k _; auto. Qed.

(** tables other than the derived one *)
Theorem run_alone types files files' s' : run has_run ic again types s0 files = (files', Ok s') -> forall t, t <> TDerived ->
  (In t types -> exists tb s1, one has_run ic again s0 t = Ok (tb, s1) /\ dget files' (ttext t) = Some tb) /\
  (~ In t types -> dget files' (ttext t) = dget files (ttext t)).
Proof. intros E. eapply tables_alone; [exact PN|exact Q0|exact again_same|split; [apply same_refl|exact Q0]|exact E]. Qed.
Theorem run_made types files : NoDup types -> (forall t, In t types -> exists tb s1, one has_run ic again s0 t = Ok (tb, s1)) -> exists files' s', run has_run ic again types s0 files = (files', Ok s').
Proof. intros ND H. eapply tables_made with (s0 := s0); [exact PN|exact Q0|exact again_same|exact ND|exact H|split; [apply same_refl|exact Q0]|auto]. Qed.
End From.

(** the document *)
Theorem document_tables has_run ic again exists_file runname s d : document exists_file runname s = Ok d ->
  (exists s1, one has_run ic again s TParams = Ok (o_params d, s1)) /\ (exists s1, one has_run ic again s TPriors = Ok (o_priors d, s1)) /\ (exists s1, one has_run ic again s TCrit = Ok (o_crit d, s1)) /\
  (exists s1, one true ic again s TDerived = Ok (o_derived d, s1)) /\
  (exists rows note, tab_rv (Some 50) x y yerr telvec = Ok (rows, note) /\ o_rv d = TabRv rows note) /\
  match x_comp s with
  | None => o_comparison d = None
  | Some cs => exists tb, o_comparison d = Some tb /\ forall c l, exists s1, one has_run (Some (Ok cs)) (Ok (c, l)) s TIc = Ok (tb, s1)
  end.
Proof.
  unfold texdoc. intro E. destruct (rv_tab x y yerr telvec (Some 50)) as [rv|] eqn:RV; [|discriminate]. cbn [bind] in E. destruct (params_tab _ _ _ _ _ _ _ _ _ s) as [pt|] eqn:PT; [|discriminate]. cbn [bind] in E.
  destruct (derived_tab _ _ _ _ _ _ _ _ _ s) as [[dt s1]|] eqn:DT; [|discriminate]. cbn [bind] in E. destruct (prior_tab priors) as [pr|] eqn:PR; [|discriminate]. cbn [bind] in E.
  assert (x_comp s1 = x_comp s) as C.
  { clear - DT. unfold derived_tab in DT. destruct (x_derived s); cbn [negb] in DT; [|injection DT as _ <-; reflexivity]. destruct (derived_plot _ _ _ _) as [dp|]; [|discriminate]. cbn [bind] in DT.
    destruct (tab_derived _ _ _ _ _ _ _ _ _ _ _ _ _) as [[chains rows]|]; [|discriminate]. cbn [bind] in DT. destruct (for_each _ _ _); [|discriminate]. injection DT as _ <-. reflexivity. }
  destruct (match x_comp s1 with None => Ok None | Some _ => _ end) as [comp|] eqn:CE; [|discriminate]. cbn [bind] in E. injection E as <-. cbn [o_params o_priors o_crit o_derived o_rv o_comparison].
  cbn [one_tab]. rewrite PT, PR. cbn [bind]. split; [eauto|]. split; [eauto|]. split; [eauto|]. split; [eauto|]. split.
  - unfold rv_tab in RV. destruct (tab_rv _ _ _ _ _) as [[rows note]|] eqn:R; [|discriminate]. injection RV as <-. eauto.
  - rewrite C in CE. destruct (x_comp s) as [cs|] eqn:CC; [|now injection CE as <-]. unfold comp_tab in CE |- *. rewrite C in CE. cbn [x_comp]. destruct (tab_comparison two_digits (Some cs)) as [rows|]; [|discriminate].
    cbn [bind] in *. injection CE as <-. eexists. split; [reflexivity|]. intros c l. eexists. reflexivity.
Qed.
Theorem document_figures exists_file runname s d : document exists_file runname s = Ok d -> NoDup (o_figures d) /\
  forall k f, In (k, f) (o_figures d) <-> exists t, In t ["rv_multipanel"; "corner"; "corner_derived_pars"] /\ k = "fig_" ++ t /\ f = runname ++ "_" ++ t ++ ".pdf" /\ exists_file f = true.
Proof.
  intro E. assert (o_figures d = figures exists_file runname) as ->.
  { unfold texdoc in E. repeat match type of E with bind ?z _ = _ => destruct z as [?|]; [|discriminate]; cbn [bind] in E | (let '(_, _) := ?z in _) = _ => destruct z end. now injection E as <-. }
  unfold figures. split.
  - apply NoDup_filter. apply FinFun.Injective_map_NoDup; [intros a b Q; injection Q as Q _; exact Q|]. repeat constructor; cbn; intuition discriminate.
  - intros k f. rewrite filter_In, in_map_iff. cbn [snd]. split.
    + intros [(t & Q & H) X]. injection Q as <- <-. eauto.
    + intros (t & H & -> & -> & X). split; eauto.
Qed.
Theorem document_made exists_file runname s : (forall t, In t [TParams; TPriors] -> exists tb s1, one true None (Err RuntimeError) s t = Ok (tb, s1)) ->
  (exists tb s1, one true None (Err RuntimeError) s TDerived = Ok (tb, s1)) -> (exists rv, tab_rv (Some 50) x y yerr telvec = Ok rv) ->
  (forall cs, x_comp s = Some cs -> exists rows, tab_comparison two_digits (Some cs) = Ok rows) -> exists d, document exists_file runname s = Ok d.
Proof.
  intros H (tb & s1 & D) [[rows note] RV] C. unfold texdoc. unfold rv_tab. rewrite RV. cbn [bind].
  destruct (H TParams) as (a & ? & A); [cbn; auto|]. cbn [one_tab] in A. destruct (params_tab _ _ _ _ _ _ _ _ _ s) as [pt|]; [|discriminate]. cbn [bind].
  cbn [one_tab] in D. rewrite D. cbn [bind]. destruct (H TPriors) as (b & ? & B); [cbn; auto|]. cbn [one_tab] in B. destruct (prior_tab priors) as [pr|]; [|discriminate]. cbn [bind].
  assert (x_comp s1 = x_comp s) as Q.
  { clear - D. unfold derived_tab in D. destruct (x_derived s); cbn [negb] in D; [|injection D as _ <-; reflexivity]. destruct (derived_plot _ _ _ _) as [dp|]; [|discriminate]. cbn [bind] in D.
    destruct (tab_derived _ _ _ _ _ _ _ _ _ _ _ _ _) as [[chains rows]|]; [|discriminate]. cbn [bind] in D. destruct (for_each _ _ _); [|discriminate]. injection D as _ <-. reflexivity. }
  rewrite Q. destruct (x_comp s) as [cs|] eqn:X; [|cbn [bind]; eauto]. unfold comp_tab. rewrite Q. destruct (C cs eq_refl) as [r ->]. cbn [bind]. eauto.
Qed.
End Run.

(** the table of velocities has them all *)
Theorem velocity_table T setorder geterr of_quantiles show two_digits nplanets letters nulls suffixes fb extra names priors os minafactor maxarchange maxgr mintz has_run ic again s :
  exists rows, one_tab T setorder geterr of_quantiles show two_digits nplanets letters nulls suffixes fb extra names priors (map RvTabSpec.o_t os) (map RvTabSpec.o_v os) (map RvTabSpec.o_e os) (map RvTabSpec.o_inst os) minafactor maxarchange maxgr mintz has_run ic again s TRv
    = Ok (TabRv rows "", s) /\ Forall2 RvTabSpec.row_of rows os.
Proof. destruct (RvTabProofs.rows_all os) as (rows & E & F). exists rows. split; [|exact F]. cbn [one_tab]. unfold rv_tab. now rewrite E. Qed.
