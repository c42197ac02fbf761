(** Model of what radvel/plot/orbit_plots.py:534-760 (GPMultipanelPlot) draws of a fit with Gaussian processes:
    plot_gp_like, plot_timeseries, and the panels of plot_multipanel with plot_likelihoods_separately.  The residual and
    phase-folded panels are those of MultipanelPlot.  Axis limits, ticks and legends are not modelled.

    The arrays of the object are given: how __init__ makes them is in Panels.v, what GPLikelihood.residuals and predict
    return in Gp.v and GpResid.v.  predict returns finite numbers here, [pl_predict] gives them.  *)
From Coq Require Import Reals String Arith Bool List.
From Verif Require Import Py PyFloat Params Kepler Basis RVModel Likelihood Stats TelPlot Panels.
Import ListNotations.
Open Scope R_scope.

(** a likelihood: suffix, x, and predict if it is a GPLikelihood *)
Record plike := mkPL { pl_suffix : string; pl_x : list R; pl_predict : option (list R -> res (list R * list R)) }.
(** attributes of the object *)
Record gpplot := mkGPP {
  gp_likes : list plike; gp_tel : list string;
  gp_raw : list R; gp_rvmod : list R; gp_err : list R; gp_plt : list R;
  gp_mplt : list R; gp_model : list R;
  gp_epoch : R; gp_xlim : option (R * R) }.
Definition with_rvmod (st : gpplot) (rvmod : list R) (epoch : R) : gpplot :=
  mkGPP (gp_likes st) (gp_tel st) (gp_raw st) rvmod (gp_err st) (gp_plt st) (gp_mplt st) (gp_model st) epoch (gp_xlim st).
(** subtract_orbit_model, subtract_gp_mean_model, separate_orbit_gp *)
Record gopt := mkOpt { o_orbit : bool; o_mean : bool; o_parts : bool }.

(** what plot_gp_like draws: the band with its edges and middle, its colour, the two parts if wanted; or the curve *)
Inductive drawing :=
| Band (tel color : string) (pts : list (R * (R * R) * R)) (parts : option (list (R * R) * list (R * R)))
| Curve (tel : string) (pts : list (R * R)).

(** a[np.where(tel == s)] += m, for m of the right length *)
Fixpoint add_at (tel : list string) (s : string) (a m : list R) : list R :=
  match tel, a with
  | t :: ts, x :: xs =>
      if String.eqb t s then match m with y :: m => x + y :: add_at ts s xs m | [] => x :: add_at ts s xs [] end
      else x :: add_at ts s xs m
  | _, _ => a
  end.
(** one number is added to all *)
Definition bump (tel : list string) (s : string) (a m : list R) : res (list R) :=
  let n := length (filter (String.eqb s) tel) in
  if Nat.eqb n (length m) then Ok (add_at tel s a m)
  else match m with [y] => Ok (add_at tel s a (repeat y n)) | _ => Err ValueError end.

(** the colour of a band, orbit_plots.py:624-630 *)
Definition band_color (fm : dict fmt) (s : string) (ci : nat) : res (string * nat) :=
  match dget fm s with
  | Some f => do c <- dget_res f "color"; Ok (c, ci)
  | None => match dget telfmts_default s with
            | Some d => do c <- dget_res d "color"; Ok (c, ci)
            | None => do c <- color_at ci; Ok (c, S ci)
            end
  end.

Section Draw.
  (** self.model *)
  Variable orbit : list R -> res (list R).
  Variable opt : gopt.

  (** xpred, orbit_plots.py:594-597 *)
  Definition band_times (st : gpplot) (l : plike) : res (list R) :=
    match gp_xlim st with
    | Some (a, b) => Ok (linspace (a + gp_epoch st) (b + gp_epoch st) (3 * 1000))
    | None => match pl_x l with [] => Err ValueError | _ => Ok (linspace (vmin (pl_x l)) (vmax (pl_x l)) (3 * 1000)) end
    end.

  (** plot_gp_like, orbit_plots.py:574-655: epoch, orbit_model4data and ci afterwards, and what was drawn.  With
      separate_orbit_gp and the mean subtracted, gpmu is a number and cannot be plotted against the times *)
  Definition plot_gp_like (st : gpplot) (fm : dict fmt) (l : plike) (om : list R) (ci : nat) : res (R * list R * nat * drawing) :=
    match pl_predict l with
    | None => Ok (gp_epoch st, om, ci, Curve (pl_suffix l) (combine (gp_mplt st) (gp_model st)))
    | Some predict =>
        do xp <- band_times st l;
        do (mu, sd) <- predict xp;
        do gom <- (if o_orbit opt then Ok (map (fun _ => 0) xp) else orbit xp);
        let '(epoch, xs, _) := shown_times xp [] (gp_epoch st) in
        do (mu, om) <- (if o_mean opt then Ok (map (fun _ => 0) xp, om)
                        else do (m, _) <- predict (pl_x l); do om <- bump (gp_tel st) (pl_suffix l) om m; Ok (mu, om));
        do (color, ci) <- band_color fm (pl_suffix l) ci;
        let mid := map2 Rplus mu gom in
        let pts := combine (combine xs (combine (map2 Rminus mid sd) (map2 Rplus mid sd))) mid in
        if o_parts opt && o_mean opt then Err ValueError else
        Ok (epoch, om, ci, Band (pl_suffix l) color pts (if o_parts opt then Some (combine xs mu, combine xs gom) else None))
    end.

  Fixpoint draw_all (st : gpplot) (fm : dict fmt) (ls : list plike) (epoch : R) (om : list R) (ci : nat) : res (R * list R * list drawing) :=
    match ls with
    | [] => Ok (epoch, om, [])
    | l :: ls =>
        do (epoch, om, ci, d) <- plot_gp_like (with_rvmod st (gp_rvmod st) epoch) fm l om ci;
        do (epoch, om, ds) <- draw_all st fm ls epoch om ci;
        Ok (epoch, om, d :: ds)
    end.

  (** orbit_model4data: a new array, or the array rvmod itself (orbit_plots.py:669-672, 745-748) *)
  Definition model4data (st : gpplot) : list R := if o_orbit opt then map (fun _ => 0) (gp_rvmod st) else gp_rvmod st.
  (** rvmod after that array was changed *)
  Definition after (st : gpplot) (epoch : R) (om : list R) : gpplot := with_rvmod st (if o_orbit opt then gp_rvmod st else om) epoch.

  (** plot_timeseries, orbit_plots.py:659-684 *)
  Definition gp_timeseries (st : gpplot) (fm : dict fmt) : res (gpplot * dict fmt * list drawing * list (series R)) :=
    do (epoch, om, ds) <- draw_all st fm (gp_likes st) (gp_epoch st) (model4data st) 0;
    do (fm, ss) <- mtelplot (gp_plt st) (map2 Rplus (gp_raw st) om) (gp_err st) (gp_tel st) fm [];
    Ok (after st epoch om, fm, ds, ss).

  (** one panel for each likelihood, orbit_plots.py:733-757; the value of ci that plot_gp_like returns is not used *)
  Fixpoint gp_separate (st : gpplot) (fm : dict fmt) (ls : list plike) : res (gpplot * dict fmt * list (drawing * list (series R))) :=
    match ls with
    | [] => Ok (st, fm, [])
    | l :: ls =>
        do (epoch, om, _, d) <- plot_gp_like st fm l (model4data st) 0;
        do (fm, ss) <- mtelplot (gp_plt st) (map2 Rplus (gp_raw st) om) (gp_err st) (gp_tel st) fm [];
        do (st, fm, ps) <- gp_separate (after st epoch om) fm ls;
        Ok (st, fm, (d, ss) :: ps)
    end.
End Draw.
