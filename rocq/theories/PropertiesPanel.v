(** Property theorems C76: what the panels of an orbit plot show. *)
From Coq Require Import Reals String Arith Bool List.
From Verif Require Import Py PyFloat Params ParamsSpec Basis RVModel Likelihood LikeBuild ExLike FastBinSpec TelPlot TelPlotSpec Panels PanelSpec PanelMade.
Import ListNotations.
Open Scope R_scope.

(** * C76 *)
(** Of a fit, the upper panel shows the velocities without offsets and the curve of all planets and the trend, the
    second the likelihood's residuals, a planet's panel the velocities without all else, folded with its period, beside
    its own curve; each with the total uncertainties and under the instrument that measured it. *)
Theorem C76_panels : forall use_c fuel argsort q ds b names E epoch xlim save f, fit_of q ds b names E -> plot_init use_c fuel q epoch xlim save = Ok f ->
  exists S, let num := ps_num (q_params q) in
    solution_of use_c fuel q ds names E (f_rows f) (times ds ++ f_mt f) S /\
    (forall fm rms hl fm' p, plot_timeseries use_c fuel q f fm rms hl = Ok (fm', p) ->
       shows ds (f_mt f) S epoch hl (velocity S) (fun t => planets S (all_planets num) t + trend S t) p) /\
    (forall fm hl fm' p, plot_residuals q f fm hl = Ok (fm', p) -> shows ds (f_mt f) S epoch hl (residual S num) (fun _ => 0) p) /\
    (forall fm nobin hl n fm' p bins, (1 <= n <= num)%nat -> plot_phasefold use_c fuel argsort q f fm nobin hl n = Ok (fm', p, bins) ->
       shows_phase argsort ds (f_mt f) S num n names (E n) nobin hl p bins) /\
    (forall fm rms hl fm' p s, formats_wf fm -> plot_timeseries use_c fuel q f fm rms hl = Ok (fm', p) -> In s (g_series p) ->
       exists name note r, dget (s_kw s) "label" = Some (name ++ note)%string /\ legend_name fm (s_tel s) name /\ rms_note note r /\
         (rms = false -> r = 0) /\
         (rms = true -> exists k d, nth_error ds k = Some d /\ strip_us (ds_suffix d) = s_tel s /\ r = spread (per_row (residual S num k) 0 (ds_t d) (ds_y d) (ds_err d)))).
Proof. exact panels_main. Qed.
Print Assumptions C76_panels.

Example C76_panels_ex : fit_of (xq exl_x true) (exl_data exl_x []) "per tp e w k" ["per"; "tp"; "e"; "w"; "k"]%string (xq_el exl_x) /\
  (forall epoch xlim save, exists f, plot_init true 29 (xq exl_x true) epoch xlim save = Ok f) /\ tels (exl_data exl_x []) = ["a"; "a"; "b"]%string /\
  times (exl_data exl_x []) = [12; 15; 17].
Proof.
  split; [exact (xq_fit exl_x exl_dom true)|]. split; [exact xq_made|]. split; reflexivity.
Qed.

(** The panels are drawn whenever the plot could be prepared and there are colours enough. *)
Theorem C76_drawn : forall use_c fuel argsort q ds b names E epoch xlim save f, fit_of q ds b names E -> plot_init use_c fuel q epoch xlim save = Ok f ->
  (forall l i, In i (argsort l) -> (i < length l)%nat) -> forall fm, formats_wf fm -> colours_suffice fm (tels ds) ->
  (forall rms hl, exists fm' p, plot_timeseries use_c fuel q f fm rms hl = Ok (fm', p)) /\
  (forall hl, exists fm' p, plot_residuals q f fm hl = Ok (fm', p)) /\
  (forall nobin hl n, (1 <= n <= ps_num (q_params q))%nat -> exists fm' p bins, plot_phasefold use_c fuel argsort q f fm nobin hl n = Ok (fm', p, bins)).
Proof. exact panels_ok. Qed.
Print Assumptions C76_drawn.

Example C76_drawn_ex : formats_wf [] /\ colours_suffice [] (tels (exl_data exl_x [])) /\ ps_num (q_params (xq exl_x true)) = 1%nat.
Proof. exact xq_colours. Qed.

(** A plot can be prepared of every fit with all its parameters present, whatever the eccentricities. *)
Theorem C76_made : forall use_c q ds b names E, fit_of q ds b names E ->
  (exists v, dict_to_vector (q_heap q) (ps_items (q_params q)) (v_indices (q_vec q)) = Ok v) -> complete q ds ->
  forall epoch xlim save, exists f, plot_init use_c 29 q epoch xlim save = Ok f.
Proof. exact made. Qed.
Print Assumptions C76_made.

Example C76_made_ex : complete (xq exl_x true) (exl_data exl_x []).
Proof. exact (xq_complete exl_x). Qed.

(** The curve runs evenly from before the first measurement to one longest period after the last. *)
Theorem C76_curve : forall use_c fuel q ds b names E epoch xlim save f, fit_of q ds b names E -> plot_init use_c fuel q epoch xlim save = Ok f ->
  exists first last P, least (times ds) first /\ greatest (times ds) last /\ longest (ps_num (q_params q)) E (last - first) P /\
    let n := if save then (100 * 100)%nat else (20 * 100)%nat in
    match xlim with
    | None => let m := (last - first) / 20 in grid (first - m) (last + m + P) n (f_mt f)
    | Some (a, c) => let m := (c - a) / 20 in grid (a + epoch - m) (c + epoch + m + P) n (f_mt f)
    end.
Proof. exact curve_times. Qed.
Print Assumptions C76_curve.

Example C76_curve_ex : least [12; 15; 17] 12 /\ greatest [12; 15; 17] 17 /\ longest 1 (xq_el exl_x) 5 10.
Proof. exact xq_longest. Qed.

(** Full claim: every fit can be plotted.  False: without dvdt or curv among the parameters (the model takes them as
    zero) there is no plot. *)
Theorem C76_trend_refuted : forall use_c fuel q ds b names E epoch xlim save f, fit_of q ds b names E ->
  ~ In "dvdt"%string (dkeys (ps_items (q_params q))) \/ ~ In "curv"%string (dkeys (ps_items (q_params q))) -> plot_init use_c fuel q epoch xlim save <> Ok f.
Proof. exact no_trend. Qed.
Print Assumptions C76_trend_refuted.

Example C76_trend_refuted_ex : fit_of (xq exl_x false) (exl_data exl_x []) "per tp e w k" ["per"; "tp"; "e"; "w"; "k"]%string (xq_el exl_x) /\
  ~ In "curv"%string (dkeys (ps_items (q_params (xq exl_x false)))) /\
  exists rs, Forall2 (fun l r => snd (rv_residuals (q_fwd true 29 (xq exl_x false)) l (v_vector (q_vec (xq exl_x false)))) = Ok r) (q_likes (xq exl_x false)) rs.
Proof. exact xq_untrended. Qed.
