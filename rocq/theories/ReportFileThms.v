(** The theorems on the files of a report (C82). *)
From Coq Require Import String Ascii Arith Bool Reals Lia List.
From Verif Require Import Py PyFacts Params Pipeline TabRun TabRunThms BasisProofs ReportFile ReportFileSpec ReportFileProofs.
Import ListNotations.
Open Scope string_scope.

Section Shown.
Variables (F : Type) (tex : doc -> F) (compiler : string -> dict F -> option (dict F)) (rel conf_base : string).
Hypothesis BN : base_name conf_base.

Lemma fig_file t name : figure_of t = Some name -> conf_base ++ "_" ++ name ++ ".pdf" = conf_base ++ plot_suffix t.
Proof. destruct t; cbn [figure_of]; intro H; try discriminate; injection H as <-; reflexivity. Qed.

(** after plots without saveplot the report is made of the files plotted *)
Theorem session_report (document : (string -> bool) -> res doc) cmds w w' : r_plots w = None -> (forall c, In c cmds -> forall t, In t (snd c) -> exists x, fst c t = Ok x) ->
  report_files F tex document compiler conf_base (plot_session rel conf_base cmds w) = (w', Ok tt) ->
  exists ex d, document ex = Ok d /\ dget (r_out w') (conf_base ++ "_results.tex") = Some (tex d) /\
    forall t, ex (conf_base ++ plot_suffix t) = true <-> exists c, In c cmds /\ In t (snd c).
Proof.
  intros P D E. destruct (report_writes F tex document compiler conf_base BN _ _ E) as (plots & ex & d & P1 & _ & EX & DD & TX & _). exists ex, d. split; [exact DD|]. split; [exact TX|].
  assert (record_ok rel conf_base (r_plots w) (fun _ => False)) as R0 by (rewrite P; intros t []).
  pose proof (session_records F rel conf_base cmds w _ R0 D) as R. rewrite P1 in R. intro t. rewrite EX, (record_recorded rel conf_base BN plots _ R). split.
  - intros (t' & [[]|M] & Q). apply (suffix_inj conf_base) in Q as ->. exact M.
  - intro M. exists t. auto.
Qed.
Theorem session_made (document : (string -> bool) -> res doc) cmds w : r_plots w = None -> (forall c, In c cmds -> forall t, In t (snd c) -> exists x, fst c t = Ok x) ->
  (exists c t, In c cmds /\ In t (snd c)) -> (forall ex, exists d, document ex = Ok d) ->
  (forall t, exists t', compiler (conf_base ++ "_results.tex") t = Some t' /\ exists x, dget t' (conf_base ++ "_results.pdf") = Some x) ->
  exists w', report_files F tex document compiler conf_base (plot_session rel conf_base cmds w) = (w', Ok tt) /\ r_temp w' = None.
Proof.
  intros P D (c & t & HC & HT) DD C.
  assert (record_ok rel conf_base (r_plots w) (fun _ => False)) as R0 by (rewrite P; intros ? []).
  pose proof (session_records F rel conf_base cmds w _ R0 D) as R. assert (kept (plot_session rel conf_base cmds w)) as K by (apply session_kept; [exact BN|unfold kept; now rewrite P]).
  destruct (r_plots (plot_session rel conf_base cmds w)) as [plots|] eqn:E.
  - eapply report_made; eauto.
  - destruct (R t). right. exists c. auto.
Qed.
End Shown.

Theorem all_kept : forall F rel conf_base, base_name conf_base ->
  (forall draw types w sp, (forall p, sp = Some p -> exists name, names p rel name) -> kept w -> kept (fst (plot_cmd F rel conf_base draw types (w, sp)))) /\
  (forall tex document compiler w, kept w -> kept (fst (report_files F tex document compiler conf_base w))).
Proof.
  intros F rel conf_base BN. split.
  - intros draw types w sp SP K. apply plots_keep; [exact BN| |exact K]. intros p E. destruct (SP p E) as [n N]. now apply dirname_names with n.
  - intros. now apply report_keeps.
Qed.

(** ** what fails *)
Section Bad.
Variables (F : Type) (tex : doc -> F) (document : (string -> bool) -> res doc) (compiler : string -> dict F -> option (dict F)).
(** a plot saved in another directory *)
Theorem elsewhere conf_base rel draw x p w : draw PRv = Ok x -> dirname p <> rel -> dget (r_out w) (basename p) = None ->
  exists w', report_files F tex document compiler conf_base (fst (plot_cmd F rel conf_base draw [PRv] (w, Some p))) = (w', Err FileNotFoundError) /\ r_out w' = r_out w.
Proof.
  intros D N O. cbn [plot_cmd plot_step saveto]. rewrite D. cbn [bind fst]. destruct (String.eqb_spec (dirname p) rel) as [|_]; [contradiction|].
  match goal with |- exists _, report_files _ _ _ _ _ ?w0 = _ /\ _ => destruct (report_missing F tex document compiler conf_base w0 _ (basename p) eq_refl) as (w' & E & Q) end.
  - apply recorded_iff, in_map_iff. exists ("rv_plot", p). split; [reflexivity|]. apply dget_in. apply dget_dset_same.
  - exact O.
  - exists w'. split; [exact E|exact Q].
Qed.
(** a plot saved in the output directory under a name of one's own *)
Theorem other_name conf_base rel draw x name w w' : base_name conf_base -> draw PRv = Ok x -> ~ In "/"%char (list_ascii_of_string name) -> name <> conf_base ++ "_rv_multipanel.pdf" -> r_plots w = None ->
  report_files F tex document compiler conf_base (fst (plot_cmd F rel conf_base draw [PRv] (w, Some (in_dir rel name)))) = (w', Ok tt) ->
  exists ex d, document ex = Ok d /\ dget (r_out w') (conf_base ++ "_results.tex") = Some (tex d) /\ ex (conf_base ++ "_rv_multipanel.pdf") = false.
Proof.
  intros BN D B N P E. cbn [plot_cmd plot_step saveto] in E. rewrite D in E. cbn [bind fst] in E. destruct (report_writes F tex document compiler conf_base BN _ _ E) as (plots & ex & d & P1 & _ & EX & DD & TX & _).
  exists ex, d. split; [exact DD|]. split; [exact TX|]. destruct (ex _) eqn:Z; [|reflexivity]. apply EX, recorded_iff in Z. cbn [r_plots] in P1. rewrite P in P1. injection P1 as <-. cbn in Z. destruct Z as [Z|[]].
  rewrite (basename_names _ _ _ (in_dir_names rel name B)) in Z. contradiction.
Qed.
(** no plot at all *)
Theorem no_plots conf_base w : r_plots w = None -> report_files F tex document compiler conf_base w = (w, Err PlainException).
Proof. intro P. unfold report_files. now rewrite P. Qed.
(** no compiler: the command ends as if it had worked, an older pdf stays beside the new document, as does the temporary directory *)
Theorem no_compiler conf_base w plots : base_name conf_base -> r_plots w = Some plots -> kept w -> (forall ex, exists d, document ex = Ok d) -> (forall t, compiler (conf_base ++ "_results.tex") t = None) ->
  exists w' d t, report_files F tex document compiler conf_base w = (w', Ok tt) /\ r_temp w' = Some t /\ dget (r_out w') (conf_base ++ "_results.tex") = Some (tex d) /\
    dget (r_out w') (conf_base ++ "_results.pdf") = dget (r_out w) (conf_base ++ "_results.pdf").
Proof.
  intros BN P K D C. destruct (report_files F tex document compiler conf_base w) as [w' [[]|e]] eqn:E.
  - destruct (report_writes F tex document compiler conf_base BN _ _ E) as (p1 & ex & d & _ & _ & _ & _ & TX & _ & t0 & _ & M). cbn [runs] in M. rewrite C in M. destruct M as [M1 M2]. exists w', d, t0. auto.
  - exfalso. unfold report_files in E. rewrite P in E. unfold compile in E. cbn [here r_out] in E.
    destruct (copy_total F (r_out w) (map (fun kf => basename (snd kf)) plots)) with (temp := @nil (string * F)) as [temp CT].
    { intros f H. unfold kept in K. rewrite P in K. apply K. now apply recorded_iff. }
    rewrite CT in E. destruct (D (dmem temp)) as [d DD]. rewrite DD, (texname_eq _ BN) in E. cbn [runs] in E. rewrite C in E. cbn [negb] in E. discriminate.
Qed.
(** a report that fails leaves the temporary directory *)
Theorem temp_left conf_base w w' e plots : r_plots w = Some plots -> report_files F tex document compiler conf_base w = (w', Err e) -> exists t, r_temp w' = Some t.
Proof.
  unfold report_files. intros P E. rewrite P in E. pose proof (compile_spec F tex document compiler (conf_base ++ "_results.pdf") (map (fun kf => basename (snd kf)) plots) (here F w Out)) as C.
  destruct (compile _ _ _ _ _ _ _) as [w1 r]. injection E as <- ->. cbn [here r_temp]. cbn zeta in C. destruct C as [_ [(e' & temp & _ & _ & T)|(temp & d & _ & _ & C)]]; [eauto|].
  destruct (runs _ _ _ _ _) as [t [|]]; [destruct (dget t _)|]; destruct C as (Z & _ & T); try discriminate; eauto.
Qed.
End Bad.

(** the argument saveplot is used up by the first velocity plot *)
Lemma used_up F rel conf_base draw ts w p :
  plot_cmd F rel conf_base draw (PRv :: ts) (w, Some p) = match draw PRv with Ok _ => plot_cmd F rel conf_base draw ts (fst (plot_cmd F rel conf_base draw [PRv] (w, Some p)), None) | Err e => (w, Err e) end.
Proof. cbn [plot_cmd plot_step saveto]. destruct (draw PRv); reflexivity. Qed.
Lemma plain_place F rel conf_base draw x w : draw PRv = Ok x ->
  exists w', plot_cmd F rel conf_base draw [PRv] (w, None) = (w', Ok tt) /\ exists plots, r_plots w' = Some plots /\ dget plots "rv_plot" = Some (in_dir rel (conf_base ++ "_rv_multipanel.pdf")).
Proof. intro D. cbn [plot_cmd plot_step saveto]. rewrite D. cbn [bind]. eexists. split; [reflexivity|]. eexists. split; [reflexivity|]. apply dget_dset_same. Qed.
Lemma used_up_twice F rel conf_base draw x w p : draw PRv = Ok x ->
  exists w' plots, plot_cmd F rel conf_base draw [PRv; PRv] (w, Some p) = (w', Ok tt) /\ r_plots w' = Some plots /\ dget plots "rv_plot" = Some (in_dir rel (conf_base ++ "_rv_multipanel.pdf")) /\
    (dirname p = rel -> basename p <> basename (in_dir rel (conf_base ++ "_rv_multipanel.pdf")) -> dget (r_out w') (basename p) = Some x).
Proof.
  intro D. rewrite used_up, D. set (w1 := fst (plot_cmd F rel conf_base draw [PRv] (w, Some p))).
  destruct (plain_place F rel conf_base draw x w1 D) as (w' & E & plots & P & G). exists w', plots. split; [exact E|split; [exact P|split; [exact G|]]].
  intros DP NB. cbn [plot_cmd plot_step saveto] in E. rewrite D in E. cbn [bind] in E. injection E as <-. cbn [r_out].
  assert (dget (r_out w1) (basename p) = Some x) as H.
  { unfold w1. cbn [plot_cmd plot_step saveto]. rewrite D. cbn [bind fst r_out]. rewrite DP, String.eqb_refl. apply dget_dset_same. }
  cbn [plot_suffix]. destruct (String.eqb _ rel); [|exact H]. now rewrite dget_dset_other by congruence.
Qed.

Section Figures.
Variables (F : Type) (ftex : doc -> F) (compiler : string -> dict F -> option (dict F)) (rel conf_base : string).
Hypothesis BN : base_name conf_base.
Lemma own_figure T setorder geterr of_quantiles show two_digits nplanets letters nulls suffixes fb extra names priors x y yerr telvec minafactor maxarchange maxgr mintz ex s d t name :
  texdoc T setorder geterr of_quantiles show two_digits nplanets letters nulls suffixes fb extra names priors x y yerr telvec minafactor maxarchange maxgr mintz ex conf_base s = Ok d -> figure_of t = Some name ->
  ((exists f, In ("fig_" ++ name, f) (o_figures d)) <-> ex (conf_base ++ plot_suffix t) = true).
Proof.
  intros E FG. apply document_figures in E as [_ E]. pose proof (fig_file conf_base t name FG) as Q. split.
  - intros [f H]. apply E in H as (n & Hn & K & -> & X). assert (n = name) as -> by (cbn in K; now injection K). now rewrite <- Q.
  - intro X. exists (conf_base ++ "_" ++ name ++ ".pdf"). apply E. exists name. repeat split; [|now rewrite Q]. destruct t; cbn in FG; try discriminate; injection FG as <-; cbn; auto.
Qed.
Theorem session_figures T setorder geterr of_quantiles show two_digits nplanets letters nulls suffixes fb extra names priors x y yerr telvec minafactor maxarchange maxgr mintz s cmds w w' :
  r_plots w = None -> (forall c, In c cmds -> forall t, In t (snd c) -> exists x, fst c t = Ok x) ->
  report_files F ftex (fun ex => texdoc T setorder geterr of_quantiles show two_digits nplanets letters nulls suffixes fb extra names priors x y yerr telvec minafactor maxarchange maxgr mintz ex conf_base s) compiler conf_base (plot_session rel conf_base cmds w) = (w', Ok tt) ->
  exists d, dget (r_out w') (conf_base ++ "_results.tex") = Some (ftex d) /\ forall t name, figure_of t = Some name -> ((exists f, In ("fig_" ++ name, f) (o_figures d)) <-> exists c, In c cmds /\ In t (snd c)).
Proof.
  intros P D E. destruct (session_report F ftex compiler rel conf_base BN _ _ _ _ P D E) as (ex & d & DD & TX & X). exists d. split; [exact TX|]. intros t name FG. rewrite (own_figure _ _ _ _ _ _ _ _ _ _ _ _ _ _ _ _ _ _ _ _ _ _ _ _ _ _ _ DD FG). apply X.
Qed.
Theorem name_hides T setorder geterr of_quantiles show two_digits nplanets letters nulls suffixes fb extra names priors x y yerr telvec minafactor maxarchange maxgr mintz s draw z nm w w' :
  draw PRv = Ok z -> ~ In "/"%char (list_ascii_of_string nm) -> nm <> conf_base ++ "_rv_multipanel.pdf" -> r_plots w = None ->
  report_files F ftex (fun ex => texdoc T setorder geterr of_quantiles show two_digits nplanets letters nulls suffixes fb extra names priors x y yerr telvec minafactor maxarchange maxgr mintz ex conf_base s) compiler conf_base
    (fst (plot_cmd F rel conf_base draw [PRv] (w, Some (in_dir rel nm)))) = (w', Ok tt) ->
  exists d, dget (r_out w') (conf_base ++ "_results.tex") = Some (ftex d) /\ forall f, ~ In ("fig_rv_multipanel", f) (o_figures d).
Proof.
  intros D B N P E. destruct (other_name _ _ _ _ _ _ _ _ _ _ _ BN D B N P E) as (ex & d & DD & TX & X). exists d. split; [exact TX|]. intros f H.
  assert (ex (conf_base ++ plot_suffix PRv) = true) as Y by (eapply own_figure; [exact DD|reflexivity|exists f; exact H]). cbn [plot_suffix] in Y. congruence.
Qed.
End Figures.

(** ** an example: rv and corner plotted, then a report *)
Section Ex.
Definition xf_tex (d : doc) : string := String.concat "," (map snd (o_figures d)).
Definition xf_doc (ex : string -> bool) : res doc := Ok (mkDoc (figures ex "k2") (TabPriors []) (TabPriors []) (TabPriors []) (TabPriors []) (TabPriors []) None).
Definition xf_latex (f : string) (t : dict string) : option (dict string) := match dget t f with Some x => Some (dset t "k2_results.pdf" ("pdf of " ++ x)) | None => None end.
Definition xf_w : files string := mkFiles [("notes", "n")] None Start None.
Definition xf_draw (t : ptype) : res string := Ok (ptext t).
Definition xf_plotted : files string := plot_session "k2" "k2" [(xf_draw, [PRv; PTrend]); (xf_draw, [PCorner])] xf_w.
Lemma xf_base : base_name "k2".
Proof. split; cbn; intuition discriminate. Qed.
Lemma xf_report : exists w', report_files string xf_tex xf_doc xf_latex "k2" xf_plotted = (w', Ok tt) /\
  dget (r_out w') "k2_results.tex" = Some "k2_rv_multipanel.pdf,k2_corner.pdf" /\ dget (r_out w') "k2_results.pdf" = Some "pdf of k2_rv_multipanel.pdf,k2_corner.pdf" /\ dget (r_out w') "notes" = Some "n" /\ r_temp w' = None.
Proof. eexists. split; [vm_compute; reflexivity|]. repeat split. Qed.
End Ex.
