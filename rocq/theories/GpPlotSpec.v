(** What the panels of a fit with Gaussian processes should show (C78). *)
From Coq Require Import Reals String Arith List.
From Verif Require Import Py PyFloat RVModel Likelihood TelPlot TelPlotSpec Panels PanelSpec GpPlot.
Import ListNotations.
Open Scope R_scope.

(** the data of one instrument (time, velocity, uncertainty), its offset and jitter, and the mean and deviation of its
    Gaussian process if it has one *)
Record member := mkGM { gm_tel : string; gm_rows : list (R * R * R); gm_off : R; gm_jit : R; gm_gp : option ((R -> R) * (R -> R)) }.
Definition time (r : R * R * R) : R := fst (fst r).
Definition vel (r : R * R * R) : R := snd (fst r).
Definition err (r : R * R * R) : R := snd r.
Definition mean_of (m : member) (t : R) : R := match gm_gp m with Some (mu, _) => mu t | None => 0 end.
(** something for each measurement *)
Definition each {A} (F : member -> R * R * R -> A) (ms : list member) : list A := concat (map (fun m => map (F m) (gm_rows m)) ms).
Definition all_times : list member -> list R := each (fun _ r => time r).
Definition all_tels : list member -> list string := each (fun m _ => gm_tel m).
Definition bars : list member -> list R := each (fun m r => sqrt (err r ^ 2 + gm_jit m ^ 2)).

(** the likelihood object of a member *)
Definition stands_for (m : member) (l : plike) : Prop :=
  pl_suffix l = gm_tel m /\ pl_x l = map time (gm_rows m) /\
  match gm_gp m with
  | None => pl_predict l = None
  | Some (mu, sd) => exists p, pl_predict l = Some p /\ forall xs, p xs = Ok (map mu xs, map sd xs)
  end.
(** the object made of a fit to [ms], [f] being the velocities of planets and trend, whose times are shown less [d] *)
Record made_of (ms : list member) (f : R -> R) (orbit : list R -> res (list R)) (d : R) (st : gpplot) : Prop := {
  mo_tels : NoDup (map gm_tel ms);
  mo_rows : forall m, In m ms -> gm_rows m <> [];
  mo_likes : Forall2 stands_for ms (gp_likes st);
  mo_orbit : forall xs, orbit xs = Ok (map f xs);
  mo_tel : gp_tel st = all_tels ms;
  (** the likelihoods' residuals: also the means of the Gaussian processes are taken off *)
  mo_raw : gp_raw st = each (fun m r => vel r - gm_off m - f (time r) - mean_of m (time r)) ms;
  mo_rvmod : gp_rvmod st = each (fun m r => f (time r)) ms;
  mo_err : gp_err st = bars ms;
  mo_plt : gp_plt st = map (fun t => t - d) (all_times ms);
  mo_curve : exists mt, gp_mplt st = map (fun t => t - d) mt /\ gp_model st = map f mt;
  mo_epoch : gp_epoch st <> 0 }.

(** a velocity less offset and, as wanted, less the orbits and the mean *)
Definition wanted (opt : gopt) (f : R -> R) (m : member) (r : R * R * R) : R :=
  vel r - gm_off m - (if o_orbit opt then f (time r) else 0) - (if o_mean opt then mean_of m (time r) else 0).
(** the middle of the band *)
Definition middle (opt : gopt) (f mu : R -> R) (t : R) : R := (if o_mean opt then 0 else mu t) + (if o_orbit opt then 0 else f t).
(** the times of the band: 3000, over the instrument's data or the limits given *)
Definition band_grid (st : gpplot) (m : member) (ts : list R) : Prop :=
  match gp_xlim st with
  | Some (a, b) => grid (a + gp_epoch st) (b + gp_epoch st) (3 * 1000) ts
  | None => exists lo hi, least (map time (gm_rows m)) lo /\ greatest (map time (gm_rows m)) hi /\ grid lo hi (3 * 1000) ts
  end.
(** what is drawn beside the points of a member *)
Definition depicts (opt : gopt) (f : R -> R) (st : gpplot) (m : member) (g : drawing) : Prop :=
  match gm_gp m with
  | None => exists pts, g = Curve (gm_tel m) pts /\ (o_orbit opt = false -> exists mt d, pts = map (fun t => (t - d, f t)) mt /\ gp_mplt st = map (fun t => t - d) mt)
  | Some (mu, sd) => exists c ts d parts, band_grid st m ts /\ shift (gp_epoch st) ts d /\
      g = Band (gm_tel m) c (map (fun t => let v := middle opt f mu t in (t - d, (v - sd t, v + sd t), v)) ts) parts /\
      (o_parts opt = false -> parts = None) /\
      (o_parts opt = true -> parts = Some (map (fun t => (t - d, mu t)) ts, map (fun t => (t - d, if o_orbit opt then 0 else f t)) ts))
  end.
(** every Gaussian process of an instrument with a format has a colour there *)
Definition bands_coloured (fm : dict (dict string)) (ms : list member) : Prop :=
  forall m, In m ms -> gm_gp m <> None -> no_format fm (gm_tel m) \/ exists c, wrote fm (gm_tel m) "color" c.
Definition colour_of (g : drawing) : option string := match g with Band _ c _ _ => Some c | Curve _ _ => None end.
