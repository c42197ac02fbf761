(** C82: a report is the document of the plots recorded and of the tables, compiled; nothing else in the output directory
    changes.  One full statement is that a report, made after any plots, shows each kind plotted and leaves no other trace
    than its two files; it is false for plots saved by `saveplot`, without a compiler and after a failure (below). *)
From Coq Require Import String Ascii Arith Bool Reals List.
From Verif Require Import Py Params Pipeline TabRun ReportFile ReportFileSpec ReportFileProofs ReportFileThms.
Import ListNotations.
Open Scope string_scope.

(** The process is where it was, also after a failure. *)
Theorem C82_place : forall F tex document compiler conf_base w, r_cwd w = Start -> r_cwd (fst (report_files F tex document compiler conf_base w)) = Start.
Proof. exact report_place. Qed.
Print Assumptions C82_place.

Example C82_place_ex : r_cwd xf_plotted = Start /\ r_cwd (fst (report_files string xf_tex (fun _ => Err ValueError) xf_latex "k2" xf_plotted)) = Start.
Proof. split; vm_compute; reflexivity. Qed.

(** A report that ends normally has written the document of the recorded plots and, if the compiler can be run, what three
    runs of it in a directory of the document and these plots leave; no other file changes. *)
Theorem C82_written : forall F tex document compiler conf_base, base_name conf_base -> forall w w', report_files F tex document compiler conf_base w = (w', Ok tt) ->
  exists plots ex d, r_plots w = Some plots /\ r_plots w' = Some plots /\
  (forall f, ex f = true <-> recorded plots f) /\ document ex = Ok d /\ dget (r_out w') (conf_base ++ "_results.tex") = Some (tex d) /\
  (forall f, f <> conf_base ++ "_results.tex" -> f <> conf_base ++ "_results.pdf" -> dget (r_out w') f = dget (r_out w) f) /\
  exists t0, workplace (r_out w) plots (conf_base ++ "_results.tex") (tex d) t0 /\
  match runs F compiler 3 (conf_base ++ "_results.tex") t0 with
  | (t, true) => (exists x, dget t (conf_base ++ "_results.pdf") = Some x /\ dget (r_out w') (conf_base ++ "_results.pdf") = Some x) /\ r_temp w' = None
  | (t, false) => dget (r_out w') (conf_base ++ "_results.pdf") = dget (r_out w) (conf_base ++ "_results.pdf") /\ r_temp w' = Some t
  end.
Proof. exact report_writes. Qed.
Print Assumptions C82_written.

Example C82_written_ex : base_name "k2" /\ exists w', report_files string xf_tex xf_doc xf_latex "k2" xf_plotted = (w', Ok tt) /\
  dget (r_out w') "k2_results.tex" = Some "k2_rv_multipanel.pdf,k2_corner.pdf" /\ dget (r_out w') "k2_results.pdf" = Some "pdf of k2_rv_multipanel.pdf,k2_corner.pdf" /\ dget (r_out w') "notes" = Some "n" /\ r_temp w' = None.
Proof. exact (conj xf_base xf_report). Qed.

(** One that fails has changed at most the document: an older report stays. *)
Theorem C82_failed : forall F tex document compiler conf_base, base_name conf_base -> forall w w' e, report_files F tex document compiler conf_base w = (w', Err e) ->
  r_plots w' = r_plots w /\ forall f, f <> conf_base ++ "_results.tex" -> dget (r_out w') f = dget (r_out w) f.
Proof. exact report_fails. Qed.
Print Assumptions C82_failed.

Example C82_failed_ex : exists w', report_files string xf_tex xf_doc (fun _ t => Some t) "k2" xf_plotted = (w', Err FileNotFoundError) /\ dget (r_out w') "notes" = Some "n" /\ dget (r_out w') "k2_results.tex" <> None.
Proof. eexists. split; [vm_compute; reflexivity|]. split; [reflexivity|discriminate]. Qed.

(** Plots saved by default, or by `saveplot` in the output directory, are there when the report looks for them, also after a
    plot that fails, and a report takes none away. *)
Theorem C82_kept : forall F rel conf_base, base_name conf_base ->
  (forall draw types w sp, (forall p, sp = Some p -> exists name, names p rel name) -> kept w -> kept (fst (plot_cmd F rel conf_base draw types (w, sp)))) /\
  (forall tex document compiler w, kept w -> kept (fst (report_files F tex document compiler conf_base w))).
Proof. exact all_kept. Qed.
Print Assumptions C82_kept.

Example C82_kept_ex : kept xf_w /\ exists name, names "out/mine.pdf" "out" name.
Proof. split; [exact I|]. exists "mine.pdf". split; [cbn; intuition discriminate|left; reflexivity]. Qed.

(** After any successful plots without `saveplot` a report can be made if its document can and the compiler makes a file, and
    nothing is left over. *)
Theorem C82_made_partial : forall F tex compiler rel conf_base, base_name conf_base -> forall (document : (string -> bool) -> res doc) cmds w, r_plots w = None ->
  (forall c, In c cmds -> forall t, In t (snd c) -> exists x, fst c t = Ok x) -> (exists c t, In c cmds /\ In t (snd c)) -> (forall ex, exists d, document ex = Ok d) ->
  (forall t, exists t', compiler (conf_base ++ "_results.tex") t = Some t' /\ exists x, dget t' (conf_base ++ "_results.pdf") = Some x) ->
  exists w', report_files F tex document compiler conf_base (plot_session rel conf_base cmds w) = (w', Ok tt) /\ r_temp w' = None.
Proof. exact session_made. Qed.
Print Assumptions C82_made_partial.

(** Its figures are then exactly the kinds that were plotted. *)
Theorem C82_shown_partial : forall F ftex compiler rel conf_base, base_name conf_base -> forall T setorder geterr of_quantiles show two_digits nplanets letters nulls suffixes fb extra names priors x y yerr telvec minafactor maxarchange maxgr mintz s cmds w w',
  r_plots w = None -> (forall c, In c cmds -> forall t, In t (snd c) -> exists x, fst c t = Ok x) ->
  report_files F ftex (fun ex => texdoc T setorder geterr of_quantiles show two_digits nplanets letters nulls suffixes fb extra names priors x y yerr telvec minafactor maxarchange maxgr mintz ex conf_base s) compiler conf_base (plot_session rel conf_base cmds w) = (w', Ok tt) ->
  exists d, dget (r_out w') (conf_base ++ "_results.tex") = Some (ftex d) /\
    forall t name, figure_of t = Some name -> ((exists f, In ("fig_" ++ name, f) (o_figures d)) <-> exists c, In c cmds /\ In t (snd c)).
Proof. exact session_figures. Qed.
Print Assumptions C82_shown_partial.

Example C82_made_ex : r_plots xf_w = None /\ (forall t, exists x, xf_draw t = Ok x) /\ (forall ex, exists d, xf_doc ex = Ok d).
Proof. repeat split; intros; eexists; reflexivity. Qed.

(** A velocity plot saved under another name is left out, though in the output directory and recorded; *)
Theorem C82_name_refuted : forall F ftex compiler rel conf_base, base_name conf_base -> forall T setorder geterr of_quantiles show two_digits nplanets letters nulls suffixes fb extra names priors x y yerr telvec minafactor maxarchange maxgr mintz s draw z nm w w',
  draw PRv = Ok z -> ~ In "/"%char (list_ascii_of_string nm) -> nm <> conf_base ++ "_rv_multipanel.pdf" -> r_plots w = None ->
  report_files F ftex (fun ex => texdoc T setorder geterr of_quantiles show two_digits nplanets letters nulls suffixes fb extra names priors x y yerr telvec minafactor maxarchange maxgr mintz ex conf_base s) compiler conf_base
    (fst (plot_cmd F rel conf_base draw [PRv] (w, Some (in_dir rel nm)))) = (w', Ok tt) ->
  exists d, dget (r_out w') (conf_base ++ "_results.tex") = Some (ftex d) /\ forall f, ~ In ("fig_rv_multipanel", f) (o_figures d).
Proof. exact name_hides. Qed.
Print Assumptions C82_name_refuted.

(** one saved in another directory makes every report fail, *)
Theorem C82_elsewhere_refuted : forall F tex document compiler conf_base rel draw x p w, draw PRv = Ok x -> dirname p <> rel -> dget (r_out w) (basename p) = None ->
  exists w', report_files F tex document compiler conf_base (fst (plot_cmd F rel conf_base draw [PRv] (w, Some p))) = (w', Err FileNotFoundError) /\ r_out w' = r_out w.
Proof. exact elsewhere. Qed.
Print Assumptions C82_elsewhere_refuted.

(** Only the first velocity plot of a command goes to [saveplot]: a second goes to the usual place and is the recorded one; *)
Theorem C82_saveplot : forall F rel conf_base draw x (w : files F) p, draw PRv = Ok x ->
  exists w' plots, plot_cmd F rel conf_base draw [PRv; PRv] (w, Some p) = (w', Ok tt) /\ r_plots w' = Some plots /\ dget plots "rv_plot" = Some (in_dir rel (conf_base ++ "_rv_multipanel.pdf")) /\
    (dirname p = rel -> basename p <> basename (in_dir rel (conf_base ++ "_rv_multipanel.pdf")) -> dget (r_out w') (basename p) = Some x).
Proof. exact used_up_twice. Qed.
Print Assumptions C82_saveplot.

Example C82_saveplot_ex : exists w', plot_cmd string "k2" "k2" xf_draw [PRv; PRv] (xf_w, Some "k2/nice.pdf") = (w', Ok tt) /\ dget (r_out w') "nice.pdf" = Some "rv" /\ dget (r_out w') "k2_rv_multipanel.pdf" = Some "rv".
Proof. eexists. split; [vm_compute; reflexivity|]. split; reflexivity. Qed.

(** and so does the absence of plots. *)
Theorem C82_noplots_refuted : forall F tex document compiler conf_base w, r_plots w = None -> report_files F tex document compiler conf_base w = (w, Err PlainException).
Proof. exact no_plots. Qed.
Print Assumptions C82_noplots_refuted.

(** Without a compiler the command ends as after a success: an older report stays beside the new document, and the temporary
    directory is left; *)
Theorem C82_nocompiler_refuted : forall F tex document compiler conf_base w plots, base_name conf_base -> r_plots w = Some plots -> kept w -> (forall ex, exists d, document ex = Ok d) -> (forall t, compiler (conf_base ++ "_results.tex") t = None) ->
  exists w' d t, report_files F tex document compiler conf_base w = (w', Ok tt) /\ r_temp w' = Some t /\ dget (r_out w') (conf_base ++ "_results.tex") = Some (tex d) /\
    dget (r_out w') (conf_base ++ "_results.pdf") = dget (r_out w) (conf_base ++ "_results.pdf").
Proof. exact no_compiler. Qed.
Print Assumptions C82_nocompiler_refuted.

(** as it is after every failure. *)
Theorem C82_temp_refuted : forall F tex document compiler conf_base w w' e plots, r_plots w = Some plots -> report_files F tex document compiler conf_base w = (w', Err e) -> exists t, r_temp w' = Some t.
Proof. exact temp_left. Qed.
Print Assumptions C82_temp_refuted.

Example C82_refuted_ex : exists w', report_files string xf_tex xf_doc xf_latex "k2" (fst (plot_cmd string "k2" "k2" xf_draw [PRv] (xf_w, Some "k2/nice.pdf"))) = (w', Ok tt) /\ dget (r_out w') "k2_results.tex" = Some "" /\ dget (r_out w') "nice.pdf" = Some "rv".
Proof. eexists. split; [vm_compute; reflexivity|]. split; reflexivity. Qed.
