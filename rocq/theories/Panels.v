(** Model of what the panels of radvel/plot/orbit_plots.py:15-330 (MultipanelPlot) show: the points and curves that
    __init__, plot_timeseries, plot_residuals and plot_phasefold hand to matplotlib.  Axis limits, ticks, fonts, legends
    and the annotation box are not modelled here.

    The posterior's likelihood is one RVLikelihood or a CompositeLikelihood of several; its x and telvec are those of
    the members one after the other (CompositeLikelihood.__init__, likelihood.py:257-268).  post.params, post.vector.params
    and the model's params are one object, as after utils.initialize_posterior; copy.deepcopy (line 71) keeps that.
    Each array of the members has the length that numpy needs, or the residuals raise.  *)
From Coq Require Import Reals String ZArith Arith Bool List.
From Verif Require Import Py PyFloat Params Kepler Basis RVModel Likelihood Phase Stats FastBin TelPlot.
Import ListNotations.
Open Scope R_scope.

(** a posterior: Parameter objects, parameters, Vector, time_base of the model, like_list *)
Record fitted := mkFit { q_heap : heap; q_params : params; q_vec : vector; q_tb : R; q_likes : list rvlike }.
Definition q_x (q : fitted) : list R := concat (map l_x (q_likes q)).
Definition q_tel (q : fitted) : list string := concat (map l_telvec (q_likes q)).

(** np.linspace(a, b, n) *)
Definition linspace (a b : R) (n : nat) : list R :=
  match n with
  | O => []
  | S O => [a]
  | S m => map (fun i => a + INR i * ((b - a) / INR m)) (seq 0 n)
  end.
(** params[k].value *)
Definition par_value (h : heap) (d : dict nat) (k : string) : res R :=
  match get_param h d k with
  | None => Err (KeyError k)
  | Some p => match p_value p with Some x => Ok x | None => Err TypeError end
  end.
(** np.std *)
Definition np_std (l : list R) : R := sqrt (mean (map (fun x => (x - mean l) ^ 2) l)).

(** attributes of a MultipanelPlot object *)
Record plotted := mkPlot {
  f_heap : heap; f_params : params;                (* post.params after line 113 *)
  f_rows : list row;                               (* post.vector.vector *)
  f_err : list R; f_raw : list R;                  (* rverr, rawresid *)
  f_mt : list R; f_model : list R; f_rvmod : list R; (* rvmodt, orbit_model, rvmod *)
  f_epoch : R; f_plt : list R; f_mplt : list R;    (* epoch, plttimes, mplttimes *)
  f_slope : list R; f_slope_low : list R }.

Section Plot.
  Variable use_c : bool.
  Variable fuel : nat.
  (** np.argsort of a list of phases *)
  Variable argsort : list ext -> list nat.

  Definition q_fwd (q : fitted) : forward := rv_forward use_c fuel (q_params q) (v_indices (q_vec q)) (v_names (q_vec q)) (q_tb q).
  (** self.model(t, planet_num) *)
  Definition q_model (q : fitted) (v : list row) (t : list R) (pn : option Z) : res (list R) :=
    rvmodel_call use_c fuel (mkRVModel (q_params q) (mkVector (v_indices (q_vec q)) v (v_names (q_vec q))) (q_tb q)) t pn.
  Definition q_members (q : fitted) : list (member (list row)) := map (rv_member (q_fwd q)) (q_likes q).
  Definition slope_at (tb dvdt curv t : R) : R := dvdt * (t - tb) + curv * (t - tb) ^ 2.

  (** the times of the model curve, orbit_plots.py:134-156: [xlim] is set_xlim, [save] whether saveplot was given.
      max of no times raises ValueError *)
  Definition model_times (x : list R) (periods : list R) (epoch : R) (xlim : option (R * R)) (save : bool) : res (list R) :=
    match x with
    | [] => Err ValueError
    | _ =>
        let n := if save then (100 * 100)%nat else (20 * 100)%nat in
        let longp := match periods with [] => vmax x - vmin x | _ => vmax periods end in
        Ok match xlim with
           | Some (a, b) => let dt := b - a in linspace (a + epoch - 5 / 100 * dt) (b + epoch + 5 / 100 * dt + longp) n
           | None => let dt := vmax x - vmin x in linspace (vmin x - 5 / 100 * dt) (vmax x + 5 / 100 * dt + longp) n
           end
    end.

  (** epoch and the times shown, orbit_plots.py:161-170 *)
  Definition shown_times (x mt : list R) (epoch : R) : R * list R * list R :=
    if existsb (fun t => rltb (t - epoch) (- 2400000)) x then (epoch, x, mt)
    else let epoch := if reqb epoch 0 then 2450000 else epoch in
         (epoch, map (fun t => t - epoch) x, map (fun t => t - epoch) mt).

  (** MultipanelPlot.__init__, orbit_plots.py:111-180; the attribute resid (line 124) is not used by any panel, but its
      computation looks up dvdt and curv *)
  Definition plot_init (q : fitted) (epoch : R) (xlim : option (R * R)) (save : bool) : res plotted :=
    let x := q_x q in
    do (h, sp) <- to_synth (q_heap q) (ps_basis (q_params q)) (q_params q) false None;
    do v <- dict_to_vector h (ps_items (q_params q)) (v_indices (q_vec q));
    do err <- comp_errorbars (q_members q) v;
    let '(v, r) := comp_residuals (q_members q) v in
    do raw <- r;
    do dvdt <- par_value h (ps_items sp) "dvdt";
    do curv <- par_value h (ps_items sp) "curv";
    do periods <- map_res (fun i => getpar h (ps_items sp) (S i) "per") (seq 0 (ps_num (q_params q)));
    do mt <- model_times x periods epoch xlim save;
    do om <- q_model q v mt None;
    do rvmod <- q_model q v x None;
    let '(epoch, plt, mplt) := shown_times x mt epoch in
    Ok (mkPlot h sp v err raw mt om rvmod epoch plt mplt
          (map (slope_at (q_tb q) dvdt curv) mt) (map (slope_at (q_tb q) dvdt curv) x)).

  (** the first position of the largest, np.argmax *)
  Fixpoint argmax_r (l : list R) : nat :=
    match l with
    | [] => 0%nat
    | x :: r => if forallb (fun y => rleb y x) r then 0%nat else S (argmax_r r)
    end.
  Definition at_ {A} (l : list A) (i : nat) : res A := match nth_error l i with Some a => Ok a | None => Err IndexError end.

  (** rms_values of plot_timeseries, orbit_plots.py:192-199; the rows afterwards *)
  Fixpoint rms_loop (q : fitted) (ls : list rvlike) (v : list row) (acc : dict R) : list row * res (dict R) :=
    match ls with
    | [] => (v, Ok acc)
    | l :: ls =>
        match rv_residuals (q_fwd q) l v with
        | (v, Ok r) => rms_loop q ls v (dset acc (l_suffix l) (np_std r))
        | (v, Err e) => (v, Err e)
        end
    end.

  (** what a panel shows: the model curve, the series of data, the highlighted point *)
  Record panel (X : Type) := mkPanel { g_curve : list (X * R); g_series : list (series X); g_last : option (X * R) }.
  Arguments mkPanel {X}. Arguments g_curve {X}. Arguments g_series {X}. Arguments g_last {X}.

  (** plot_timeseries, orbit_plots.py:184-224: the user's formats afterwards and the panel *)
  Definition plot_timeseries (q : fitted) (f : plotted) (telfmts : dict fmt) (show_rms highlight : bool) : res (dict fmt * panel R) :=
    do rms <- (if show_rms then snd (rms_loop q (q_likes q) (f_rows f) []) else Ok []);
    let vels := map2 Rplus (f_raw f) (f_rvmod f) in
    do (fm, ss) <- mtelplot (f_plt f) vels (f_err f) (q_tel q) telfmts rms;
    do last <- (if highlight then let i := argmax_r (f_plt f) in do a <- at_ (f_plt f) i; do b <- at_ vels i; Ok (Some (a, b)) else Ok None);
    Ok (fm, mkPanel (combine (f_mplt f) (f_model f)) ss last).

  (** plot_residuals, orbit_plots.py:240-257 *)
  Definition plot_residuals (q : fitted) (f : plotted) (telfmts : dict fmt) (highlight : bool) : res (dict fmt * panel R) :=
    do (fm, ss) <- mtelplot (f_plt f) (f_raw f) (f_err f) (q_tel q) telfmts [];
    do last <- (if highlight then let i := argmax_r (f_plt f) in do a <- at_ (f_plt f) i; do b <- at_ (f_raw f) i; Ok (Some (a, b)) else Ok None);
    Ok (fm, mkPanel (combine (f_mplt f) (map2 Rminus (f_slope f) (f_slope f))) ss last).

  Definition minus1 (x : ext) : ext := ext_sub x (Fin 1).
  (** np.histogram refuses nan *)
  Definition finite (x : ext) : res R := match x with Fin a => Ok a | _ => Err ValueError end.

  (** plot_phasefold, orbit_plots.py:268-330: the panel, and the binned data (none with nobin or few measurements) *)
  Definition plot_phasefold (q : fitted) (f : plotted) (telfmts : dict fmt) (nobin highlight : bool) (pnum : nat)
    : res (dict fmt * panel ext * list (R * ext * ext)) :=
    let x := q_x q in
    let nobin := nobin || Nat.ltb (length x) 20 in
    do m2 <- q_model q (f_rows f) (f_mt f) (Some (Z.of_nat pnum));
    let rvmod2 := map2 Rminus m2 (f_slope f) in
    do mph <- t_to_phase (f_heap f) (ps_items (f_params f)) (f_mt f) pnum true;
    let modph := map minus1 mph in
    do m1 <- q_model q (f_rows f) x (Some (Z.of_nat pnum));
    let rvdat := map2 Rminus (map2 Rplus (f_raw f) m1) (f_slope_low f) in
    do ph <- t_to_phase (f_heap f) (ps_items (f_params f)) x pnum true;
    let phase := map minus1 ph in
    let rvdatcat := (rvdat ++ rvdat)%list in
    let rverrcat := (f_err f ++ f_err f)%list in
    let rvmod2cat := (rvmod2 ++ rvmod2)%list in
    do xs <- map_res (fun a => finite (ext_add a (Fin 1))) phase;
    do bins <- fastbin xs rvdatcat 25;
    let bins := map (fun b => (fst (fst b) - 1, snd (fst b), snd b)) bins in
    do curve <- map_res (fun i => do a <- at_ modph i; do b <- at_ rvmod2cat i; Ok (a, b)) (argsort modph);
    let telcat := (q_tel q ++ q_tel q)%list in
    do last <- (if highlight then
                  let i := argmax_r x in
                  do t <- at_ x i;
                  do hp <- t_to_phase (f_heap f) (ps_items (f_params f)) [t] pnum false;
                  do a <- at_ hp 0;
                  do b <- at_ rvdatcat i;
                  Ok (Some (if ext_ltb (Fin (1 / 2)) a then minus1 a else a, b))
                else Ok None);
    do (fm, ss) <- mtelplot phase rvdatcat rverrcat telcat telfmts [];
    Ok (fm, mkPanel curve ss last, if negb nobin && Nat.ltb 10 (length rvdat) then bins else []).
End Plot.
Arguments mkPanel {X}. Arguments g_curve {X}. Arguments g_series {X}. Arguments g_last {X}.
