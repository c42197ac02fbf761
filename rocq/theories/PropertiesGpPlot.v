(** Property theorems C78: the panels of a fit with Gaussian processes. *)
From Coq Require Import Reals String Arith Bool Lra List.
From Verif Require Import Py PyFloat RVModel Likelihood TelPlot TelPlotSpec Panels PanelSpec GpPlot GpPlotSpec GpPlotThms GpPlotMade.
Import ListNotations.
Open Scope R_scope.

(** * C78 *)
(** The upper panel shows the velocities less the offsets and, as wanted, less the orbits and the means of the Gaussian
    processes; beside them, for each process, the sum of what was not taken off and a band of one deviation about it. *)
Theorem C78_panel : forall ms f orbit d st opt fm st' fm' gs ss, made_of ms f orbit d st -> gp_timeseries orbit opt st fm = Ok (st', fm', gs, ss) ->
  drawn (all_tels ms) (map (fun t => t - d) (all_times ms)) (each (wanted opt f) ms) (bars ms) ss /\ Forall2 (depicts opt f st) ms gs.
Proof. exact gp_panel. Qed.
Print Assumptions C78_panel.

Example C78_panel_ex : made_of xms xorbit xrun 5 xplot /\ (exists st' fm' gs ss, gp_timeseries xrun (mkOpt true false true) xplot [] = Ok (st', fm', gs, ss)) /\
  wanted (mkOpt true false true) xorbit (xm "y" 10) (10, 11, 1) = -12.
Proof. split; [exact xms_made|]. split; [now apply xms_drawn; right|]. unfold wanted, xorbit, vel, time. cbn. lra. Qed.

(** Full claim: drawing the panel again shows the same.  False: with orbits and processes both shown, every further
    drawing has the means once more on top of the velocities. *)
Theorem C78_again_refuted : forall ms f orbit d st opt fm fm2 st1 fm1 gs1 ss1 st2 fm2' gs2 ss2, made_of ms f orbit d st -> o_orbit opt = false -> o_mean opt = false ->
  gp_timeseries orbit opt st fm = Ok (st1, fm1, gs1, ss1) -> gp_timeseries orbit opt st1 fm2 = Ok (st2, fm2', gs2, ss2) ->
  drawn (all_tels ms) (map (fun t => t - d) (all_times ms)) (each (fun m r => wanted opt f m r + mean_of m (time r)) ms) (bars ms) ss2.
Proof. exact gp_again. Qed.
Print Assumptions C78_again_refuted.

Example C78_again_refuted_ex : made_of xms xorbit xrun 5 xplot /\ mean_of (xm "y" 10) 10 = 11 /\ exists st1 fm1 gs1 ss1 st2 fm2 gs2 ss2,
  gp_timeseries xrun (mkOpt false false false) xplot [] = Ok (st1, fm1, gs1, ss1) /\ gp_timeseries xrun (mkOpt false false false) st1 [] = Ok (st2, fm2, gs2, ss2).
Proof. split; [exact xms_made|]. split; [cbn; lra|exact xms_again]. Qed.

(** With a panel for each likelihood, the panel of a likelihood shows its own velocities as wanted, and those of the
    likelihoods before it. *)
Theorem C78_separate_partial : forall ms f orbit d st opt fm st' fm' ps, made_of ms f orbit d st -> gp_separate orbit opt st fm (gp_likes st) = Ok (st', fm', ps) ->
  length ps = length ms /\ forall k m p, nth_error ms k = Some m -> nth_error ps k = Some p -> depicts opt f st m (fst p) /\
    exists V, drawn (all_tels ms) (map (fun t => t - d) (all_times ms)) (each V ms) (bars ms) (snd p) /\
      (forall m' r, In m' ms -> m' = m \/ gm_gp m' = None \/ o_mean opt = true \/ (o_orbit opt = false /\ In m' (firstn k ms)) -> V m' r = wanted opt f m' r) /\
      (forall m' r, In m' ms -> m' <> m -> o_mean opt = false -> (o_orbit opt = true \/ In m' (skipn (S k) ms)) -> V m' r = wanted opt f m' r - mean_of m' (time r)).
Proof. exact gp_separately. Qed.
Print Assumptions C78_separate_partial.

Example C78_separate_partial_ex : exists st' fm' ps, gp_separate xrun (mkOpt false false false) xplot [] (gp_likes xplot) = Ok (st', fm', ps).
Proof. now apply xms_separate. Qed.

(** Full claim: all velocities of all panels are shown as wanted.  False: those of the likelihoods still to come lack
    their means. *)
Theorem C78_separate_refuted : exists ms f orbit d st opt fm st' fm' ps m m' p V, made_of ms f orbit d st /\ o_orbit opt = false /\ o_mean opt = false /\
  gp_separate orbit opt st fm (gp_likes st) = Ok (st', fm', ps) /\ nth_error ms 0 = Some m /\ nth_error ps 0 = Some p /\ In m' ms /\
  drawn (all_tels ms) (map (fun t => t - d) (all_times ms)) (each V ms) (bars ms) (snd p) /\
  forall r, In r (gm_rows m') -> V m' r <> wanted opt f m' r.
Proof. exact gp_separate_wrong. Qed.
Print Assumptions C78_separate_refuted.

Example C78_separate_refuted_ex : gm_rows (xm "x" 20) <> [] /\ mean_of (xm "x" 20) 20 = 21.
Proof. split; [discriminate|]. cbn. lra. Qed.

(** The band of an instrument whose colour is written by the user or known to the program has that colour, as its
    points have. *)
Theorem C78_colours_partial : forall ms f orbit d st opt fm st' fm' gs ss, made_of ms f orbit d st -> gp_timeseries orbit opt st fm = Ok (st', fm', gs, ss) -> formats_wf fm ->
  forall k m g c, nth_error ms k = Some m -> nth_error gs k = Some g -> colour_of g = Some c ->
    (exists v, wrote fm (gm_tel m) "color" v) \/ (no_format fm (gm_tel m) /\ exists n v, known (gm_tel m) n v) ->
    (forall v, wrote fm (gm_tel m) "color" v -> c = v) /\ (forall n v, no_format fm (gm_tel m) -> known (gm_tel m) n v -> c = v) /\
    forall s, In s ss -> s_tel s = gm_tel m -> dget (s_kw s) "color" = Some c.
Proof. exact gp_colours. Qed.
Print Assumptions C78_colours_partial.

Example C78_colours_partial_ex : exists v, wrote [("y"%string, [("color"%string, "red"%string)])] (gm_tel (xm "y" 10)) "color" v.
Proof. exists "red"%string. exists [("color"%string, "red"%string)]. auto. Qed.

(** Full claim: every band has the colour of its instrument's points.  False for instruments the program does not know:
    bands take colours in the order of the likelihoods, points in the order of the names. *)
Theorem C78_colours_refuted : exists ms f orbit d st opt fm st' fm' gs ss m g c s,
  made_of ms f orbit d st /\ gp_timeseries orbit opt st fm = Ok (st', fm', gs, ss) /\
  nth_error ms 0 = Some m /\ nth_error gs 0 = Some g /\ colour_of g = Some c /\ In s ss /\ s_tel s = gm_tel m /\ dget (s_kw s) "color" <> Some c.
Proof. exact gp_colour_wrong. Qed.
Print Assumptions C78_colours_refuted.

Example C78_colours_refuted_ex : map gm_tel xms = ["y"; "x"; "z"]%string.
Proof. reflexivity. Qed.

(** Full claim: the curve beside velocities less the orbits shows no orbits.  False for a likelihood without a process:
    its curve is that of planets and trend whatever was taken off. *)
Theorem C78_curve_refuted : forall ms f orbit d st opt fm st' fm' gs ss, made_of ms f orbit d st -> gp_timeseries orbit opt st fm = Ok (st', fm', gs, ss) ->
  forall k m g, nth_error ms k = Some m -> nth_error gs k = Some g -> gm_gp m = None ->
  exists mt, gp_mplt st = map (fun t => t - d) mt /\ g = Curve (gm_tel m) (map (fun t => (t - d, f t)) mt).
Proof. exact gp_curve. Qed.
Print Assumptions C78_curve_refuted.

Example C78_curve_refuted_ex : (exists m, nth_error xms 2 = Some m /\ gm_gp m = None) /\
  exists st' fm' gs ss, gp_timeseries xrun (mkOpt true false false) xplot [] = Ok (st', fm', gs, ss).
Proof. split; [eexists; split; reflexivity|]. now apply xms_drawn; left. Qed.

(** A panel is drawn if there are colours enough and no band is without. *)
Theorem C78_made_partial : forall ms f orbit d st opt fm, made_of ms f orbit d st -> formats_wf fm -> colours_suffice fm (all_tels ms) -> bands_coloured fm ms ->
  o_parts opt = false \/ o_mean opt = false -> exists st' fm' gs ss, gp_timeseries orbit opt st fm = Ok (st', fm', gs, ss).
Proof. exact gp_made. Qed.
Print Assumptions C78_made_partial.

Example C78_made_partial_ex : formats_wf [] /\ colours_suffice [] (all_tels xms) /\ bands_coloured [] xms.
Proof. exact xms_colours. Qed.

(** Full claim: a panel is drawn whatever the options and formats.  False: not with the parts drawn apart and the mean
    taken off, nor with a format that has no colour. *)
Theorem C78_made_refuted : forall ms f orbit d st opt fm m r, made_of ms f orbit d st -> In m ms -> gm_gp m <> None ->
  (o_parts opt = true /\ o_mean opt = true) \/ (~ no_format fm (gm_tel m) /\ wrote_none fm (gm_tel m) "color") -> gp_timeseries orbit opt st fm <> Ok r.
Proof. exact gp_not_made. Qed.
Print Assumptions C78_made_refuted.

Example C78_made_refuted_ex : made_of xms xorbit xrun 5 xplot /\ gm_gp (xm "y" 10) <> None /\ ~ no_format [("y"%string, [("fmt"%string, "o"%string)])] "y" /\
  wrote_none [("y"%string, [("fmt"%string, "o"%string)])] "y" "color".
Proof.
  split; [exact xms_made|]. split; [discriminate|]. split; [intro N; apply N; now left|]. intros v (f & E & V). cbn in E. injection E as <-. discriminate V.
Qed.
