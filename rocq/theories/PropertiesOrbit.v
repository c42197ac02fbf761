(** Property theorems C01-C07: Kepler's equation, radial velocity, transit times. *)
From Coq Require Import Reals List ZArith Lra.
From Verif Require Import Py Kepler KeplerSpec KeplerProofs DanbyProofs RvProofs RvTerm OrbitProofs.
Import ListNotations.
Open Scope R_scope.

(** * C01 *)

(** Kepler's equation has exactly one solution. *)
Theorem C01_kepler_equation_unique_solution : forall e M, 0 <= e < 1 ->
  (exists E, is_ecc_anomaly e M E) /\
  (forall E1 E2, is_ecc_anomaly e M E1 -> is_ecc_anomaly e M E2 -> E1 = E2).
Proof.
  exact (fun e M He => conj (kepler_exists e M He)
                            (fun E1 E2 => kepler_unique e E1 E2 M He)).
Qed.
Print Assumptions C01_kepler_equation_unique_solution.

(** Python solver: every element of a returned array is within 1e-12/(1-e) of
    the true eccentric anomaly. *)
Theorem C01_python_solver_accurate : forall fuel Ms es v,
  length es = length Ms -> kepler fuel Ms es = Ok v ->
  forall i M e Es, nth_error Ms i = Some M -> nth_error es i = Some e -> 0 <= e < 1 ->
    is_ecc_anomaly e M Es ->
    exists E, nth_error (npelems v) i = Some E /\ Rabs (E - Es) <= / 1000000000000 / (1 - e).
Proof.
  exact python_solver_accurate.
Qed.
Print Assumptions C01_python_solver_accurate.

Example C01_python_solver_accurate_ex :
  exists v, kepler 29 [1; 3; 6] [1/4; 0; 3/10] = Ok v /\ length (npelems v) = 3%nat.
Proof.
  destruct (kepler_terminates [1; 3; 6] [1/4; 0; 3/10]) as [v H]; try easy.
  - cbn. intros e [<-|[<-|[<-|[]]]]; lra.
  - exists v. split; auto. now apply kepler_pointwise in H.
Qed.

(** C solver: the same accuracy, reached with fewer than 30 corrections. *)
Theorem C01_c_solver_accurate : forall M e E Es, 0 <= e < 1 ->
  c_kepler M e = Ok E -> is_ecc_anomaly e M Es ->
  Rabs (E - Es) <= / 1000000000000 / (1 - e).
Proof.
  exact (fun M e E Es He H HE => kepler_accuracy e M E Es _ He (c_kepler_conv M e E H) HE).
Qed.
Print Assumptions C01_c_solver_accurate.

Theorem C01_c_solver_at_most_29_corrections : forall M e E, c_kepler M e = Ok E ->
  exists j, (j < 30)%nat /\ E = iter_danby j M e (c_guess M e).
Proof.
  exact c_kepler_iter.
Qed.
Print Assumptions C01_c_solver_at_most_29_corrections.

Example C01_c_solver_ex : exists E, c_kepler 1 (1/4) = Ok E.
Proof. apply c_kepler_terminates. lra. Qed.

(** Beyond the claim: both solvers return for eccentricities up to 0.3, by
    an elementary argument (up to 0.99: C87 in PropertiesReturn.v). *)
Theorem C01_solvers_terminate_low_eccentricity :
  (forall Ms es, length es = length Ms -> Ms <> [] -> (forall e, In e es -> 0 <= e <= 3/10) ->
     exists v, kepler 29 Ms es = Ok v) /\
  (forall M e, 0 <= e <= 3/10 -> exists E, c_kepler M e = Ok E).
Proof. exact (conj kepler_terminates (fun M e => c_kepler_terminates e M)). Qed.
Print Assumptions C01_solvers_terminate_low_eccentricity.

(** * C02 *)

(** Each returned element is what the scalar loop started from the same guess
    returns for that element alone; length and order are kept. *)
Theorem C02_solver_elementwise : forall fuel Ms es v,
  length es = length Ms -> kepler fuel Ms es = Ok v ->
  length (npelems v) = length Ms /\
  forall i M e, nth_error Ms i = Some M -> nth_error es i = Some e ->
    exists E, solve1_loop fuel M e (py_guess M e) = Some E /\ nth_error (npelems v) i = Some E.
Proof. exact kepler_pointwise. Qed.
Print Assumptions C02_solver_elementwise.

(** One call on an array is the same as one call per element. *)
Theorem C02_array_equals_single_calls : forall fuel Ms es v,
  length es = length Ms -> kepler fuel Ms es = Ok v ->
  forall i M e, nth_error Ms i = Some M -> nth_error es i = Some e ->
    exists E, kepler fuel [M] [e] = Ok (Scal E) /\ nth_error (npelems v) i = Some E.
Proof. exact kepler_array_single. Qed.
Print Assumptions C02_array_equals_single_calls.

(** If each element alone is solved within the fuel, so is the array. *)
Theorem C02_array_terminates_with_its_elements : forall fuel Ms es,
  length es = length Ms -> Ms <> [] ->
  (forall i M e, nth_error Ms i = Some M -> nth_error es i = Some e ->
    exists E, solve1_loop (S fuel) M e (py_guess M e) = Some E) ->
  exists v, kepler (S fuel) Ms es = Ok v.
Proof. exact kepler_total. Qed.
Print Assumptions C02_array_terminates_with_its_elements.

(** An empty array is an IndexError, not an empty result. *)
Theorem C02_empty_array_raises : forall fuel, kepler (S fuel) [] [] = Err IndexError.
Proof. exact kepler_empty. Qed.
Print Assumptions C02_empty_array_raises.

Example C02_ex : exists v, kepler 29 [1; 2] [1/4; 1/10] = Ok v.
Proof.
  apply kepler_terminates; try easy. cbn. intros e [<-|[<-|[]]]; lra.
Qed.

(** * C03 *)

(** rv_drive (either back end) returns, per time, the Keplerian velocity up to
    the error propagated from the 1e-12 tolerance (plus 1e-15 |K| for the tan pole). *)
Theorem C03_rv_drive_is_keplerian : forall use_c fuel ts o v,
  0 < o_e o <= 99 / 100 -> 0 < o_per o ->
  rv_drive use_c fuel ts o = Ok v ->
  length (npelems v) = length ts /\
  forall i t, nth_error ts i = Some t ->
   exists x rv, nth_error (npelems v) i = Some x /\
     is_rv (o_per o) (o_tp o) (o_e o) (o_om o) (o_k o) t rv /\
     Rabs (x - rv) <= Rabs (o_k o) * (sqrt ((1 + o_e o) / (1 - o_e o))
                                      * (/ 1000000000000 / (1 - o_e o)) + / 10 ^ 15).
Proof. exact rv_drive_accurate. Qed.
Print Assumptions C03_rv_drive_is_keplerian.

Theorem C03_velocity_is_unique : forall per tp e om k t, 0 <= e < 1 ->
  (exists v, is_rv per tp e om k t v) /\
  (forall v v', is_rv per tp e om k t v -> is_rv per tp e om k t v' -> v = v').
Proof.
  exact (fun per tp e om k t He => conj (is_rv_exists per tp e om k t He)
     (fun v v' => is_rv_unique per tp e om k t v v' He)).
Qed.
Print Assumptions C03_velocity_is_unique.

Theorem C03_circular_orbit_exact : forall use_c fuel ts o, o_e o = 0 ->
  exists l, rv_drive use_c fuel ts o = Ok (Arr l) /\ length l = length ts /\
  forall i t, nth_error ts i = Some t -> exists x, nth_error l i = Some x /\
    is_rv (o_per o) (o_tp o) 0 (o_om o) (o_k o) t x.
Proof. exact rv_drive_circular. Qed.
Print Assumptions C03_circular_orbit_exact.

Theorem C03_periodic_in_time : forall use_c fuel ts o n, 0 < o_per o ->
  rv_drive use_c fuel (map (fun t => t + IZR n * o_per o) ts) o = rv_drive use_c fuel ts o.
Proof. exact rv_drive_period. Qed.
Print Assumptions C03_periodic_in_time.

Theorem C03_periodic_in_tp : forall use_c fuel ts o n, 0 < o_per o ->
  rv_drive use_c fuel ts (mkOrbel (o_per o) (o_tp o + IZR n * o_per o) (o_e o) (o_om o) (o_k o))
  = rv_drive use_c fuel ts o.
Proof. exact rv_drive_tp. Qed.
Print Assumptions C03_periodic_in_tp.

Theorem C03_periodic_in_omega : forall use_c fuel ts o n,
  rv_drive use_c fuel ts (mkOrbel (o_per o) (o_tp o) (o_e o) (o_om o + 2 * IZR n * PI) (o_k o))
  = rv_drive use_c fuel ts o.
Proof. exact rv_drive_om. Qed.
Print Assumptions C03_periodic_in_omega.

Theorem C03_linear_in_K : forall use_c fuel ts o c,
  rv_drive use_c fuel ts (mkOrbel (o_per o) (o_tp o) (o_e o) (o_om o) (c * o_k o)) =
  match rv_drive use_c fuel ts o with
  | Ok v => Ok (npmap (fun x => c * x) v)
  | Err e => Err e
  end.
Proof. exact rv_drive_linear. Qed.
Print Assumptions C03_linear_in_K.

Theorem C03_bounded : forall use_c fuel ts o v, rv_drive use_c fuel ts o = Ok v ->
  forall x, In x (npelems v) -> Rabs x <= Rabs (o_k o) * (1 + Rmin (Rmax (o_e o) 0) (99/100)).
Proof. exact rv_drive_bound. Qed.
Print Assumptions C03_bounded.

(** Non-vacuity: rv_drive returns for every non-empty time array when e <= 0.3. *)
Theorem C03_rv_drive_returns_low_eccentricity : forall use_c ts o, ts <> [] -> o_e o <= 3 / 10 ->
  exists v, rv_drive use_c 29 ts o = Ok v.
Proof. exact rv_drive_terminates. Qed.
Print Assumptions C03_rv_drive_returns_low_eccentricity.

Example C03_ex : forall use_c, exists v, rv_drive use_c 29 [0; 1; 5/2] (mkOrbel 10 0 (1/4) 1 50) = Ok v.
Proof. intro. apply rv_drive_terminates; [easy|cbn; lra]. Qed.

(** * C04 *)

Theorem C04_c_and_numpy_formulas_equal : forall e om k E,
  c_rv_of_E e (cos om) (sin om) k E = py_rv_of_nu e om k (nu_of_E e E).
Proof. exact c_rv_eq_py. Qed.
Print Assumptions C04_c_and_numpy_formulas_equal.

Theorem C04_back_ends_agree : forall fuel ts o v w,
  0 <= o_e o <= 99 / 100 -> 0 < o_per o ->
  rv_drive true fuel ts o = Ok v -> rv_drive false fuel ts o = Ok w ->
  length (npelems v) = length (npelems w) /\
  forall i x y, nth_error (npelems v) i = Some x -> nth_error (npelems w) i = Some y ->
    Rabs (x - y) <= 2 * (Rabs (o_k o) * (sqrt ((1 + o_e o) / (1 - o_e o))
                                      * (/ 1000000000000 / (1 - o_e o)) + / 10 ^ 15)).
Proof. exact backends_close. Qed.
Print Assumptions C04_back_ends_agree.

(** the e = 0 shortcut is the general formula at e = 0 (E = M) *)
Theorem C04_circular_shortcut : forall per tp om k t,
  cos (mean_anomaly per tp t / 2) <> 0 ->
  py_rv_of_nu 0 om k (nu_of_E 0 (mean_anomaly per tp t)) = k * cos (mean_anomaly per tp t + om).
Proof. exact circular_shortcut. Qed.
Print Assumptions C04_circular_shortcut.

Example C04_ex : exists v w,
  rv_drive true 29 [1; 2] (mkOrbel 10 0 (1/4) 1 50) = Ok v /\
  rv_drive false 29 [1; 2] (mkOrbel 10 0 (1/4) 1 50) = Ok w.
Proof.
  destruct (rv_drive_terminates true [1;2] (mkOrbel 10 0 (1/4) 1 50)) as [v Hv]; [easy|cbn; lra|].
  destruct (rv_drive_terminates false [1;2] (mkOrbel 10 0 (1/4) 1 50)) as [w Hw]; [easy|cbn; lra|].
  eauto.
Qed.

(** * C05 *)

(** Full claim: for all orbel, rv_drive o = rv_drive (clamped o). It holds for e > 0... *)
Theorem C05_clamped_partial : forall use_c fuel ts o, 0 < o_e o ->
  rv_drive use_c fuel ts o =
  rv_drive use_c fuel ts
    (mkOrbel (if Rlt_dec (o_per o) 0 then / 10000 else o_per o) (o_tp o)
       (Rmin (Rmax (o_e o) 0) (99/100)) (o_om o) (o_k o)).
Proof. exact rv_drive_clamp_pos. Qed.
Print Assumptions C05_clamped_partial.

(** ... for e < 0 up to the solver tolerance (circular orbit, clamped period) ... *)
Theorem C05_negative_e_is_circular_partial : forall use_c fuel ts o v, o_e o < 0 ->
  rv_drive use_c fuel ts o = Ok v ->
  length (npelems v) = length ts /\
  forall i t, nth_error ts i = Some t ->
   exists x rv, nth_error (npelems v) i = Some x /\
     is_rv (if Rlt_dec (o_per o) 0 then / 10000 else o_per o) (o_tp o) 0 (o_om o) (o_k o) t rv /\
     Rabs (x - rv) <= Rabs (o_k o) * (sqrt ((1 + 0) / (1 - 0)) * (/ 1000000000000 / (1 - 0)) + / 10 ^ 15).
Proof. exact rv_drive_clamp_neg. Qed.
Print Assumptions C05_negative_e_is_circular_partial.

(** ... and fails for e = 0, where a negative period is used unclamped. *)
Theorem C05_negative_period_circular_refuted :
  exists o ts, o_e o = 0 /\ o_per o < 0 /\
    forall use_c fuel, rv_drive use_c fuel ts o <>
    rv_drive use_c fuel ts
      (mkOrbel (if Rlt_dec (o_per o) 0 then / 10000 else o_per o) (o_tp o)
         (Rmin (Rmax (o_e o) 0) (99/100)) (o_om o) (o_k o)).
Proof. exact rv_drive_clamp_refuted. Qed.
Print Assumptions C05_negative_period_circular_refuted.

Example C05_ex : exists v, rv_drive true 29 [1] (mkOrbel (-3) 0 (-2) 1 50) = Ok v.
Proof. apply rv_drive_terminates; [easy|cbn; lra]. Qed.

(** * C06 *)

Theorem C06_round_trip : forall t per e om,
  timetrans_to_timeperi (timeperi_to_timetrans t per e om false) per e om = t /\
  timeperi_to_timetrans (timetrans_to_timeperi t per e om) per e om false = t.
Proof. exact (fun t per e om => conj (round_trip_tp t per e om) (round_trip_tc t per e om)). Qed.
Print Assumptions C06_round_trip.

(** At the transit time the true anomaly is pi/2 - omega. *)
Theorem C06_transit_means_conjunction : forall tp per e om, 0 <= e < 1 -> per <> 0 ->
  cos ((PI / 2 - om) / 2) <> 0 ->
  is_true_anomaly_at per tp e (timeperi_to_timetrans tp per e om false) (PI / 2 - om).
Proof. exact (fun tp per e om => at_transit tp per e om false). Qed.
Print Assumptions C06_transit_means_conjunction.

(** Same without excluding the tangent pole, to 1e-15. *)
Theorem C06_transit_means_conjunction_everywhere : forall tp per e om, 0 <= e < 1 -> per <> 0 ->
  exists nu, is_true_anomaly_at per tp e (timeperi_to_timetrans tp per e om false) nu /\
    Rabs (cos nu - cos (PI / 2 - om)) <= / 10 ^ 15 /\
    Rabs (sin nu - sin (PI / 2 - om)) <= / 10 ^ 15.
Proof. exact (fun tp per e om => at_transit_approx tp per e om false). Qed.
Print Assumptions C06_transit_means_conjunction_everywhere.

(** And for the periastron time computed from a transit time. *)
Theorem C06_periastron_of_transit : forall tc per e om, 0 <= e < 1 -> per <> 0 ->
  cos ((PI / 2 - om) / 2) <> 0 ->
  is_true_anomaly_at per (timetrans_to_timeperi tc per e om) e tc (PI / 2 - om).
Proof. exact at_transit_inverse. Qed.
Print Assumptions C06_periastron_of_transit.

Theorem C06_transit_within_half_period : forall tp per e om, 0 <= e < 1 -> 0 < per ->
  Rabs (timeperi_to_timetrans tp per e om false - tp) < per / 2.
Proof. exact transit_near_tp. Qed.
Print Assumptions C06_transit_within_half_period.

Theorem C06_omega_modulo_2pi : forall t per e om b n,
  timeperi_to_timetrans t per e (om + 2 * IZR n * PI) b = timeperi_to_timetrans t per e om b /\
  timetrans_to_timeperi t per e (om + 2 * IZR n * PI) = timetrans_to_timeperi t per e om.
Proof. exact om_period. Qed.
Print Assumptions C06_omega_modulo_2pi.

Theorem C06_unbound_returns_input : forall t per e om b, 1 <= e ->
  timeperi_to_timetrans t per e om b = t /\ timetrans_to_timeperi t per e om = t.
Proof. exact unbound_orbit. Qed.
Print Assumptions C06_unbound_returns_input.

Example C06_ex : 0 <= 1/4 < 1 /\ (10 : R) <> 0 /\ cos ((PI / 2 - PI / 2) / 2) <> 0 /\
  timeperi_to_timetrans 7 10 (1/4) (PI / 2) false = 7.
Proof.
  repeat split; try lra.
  - replace ((PI / 2 - PI / 2) / 2) with 0 by field. rewrite cos_0. lra.
  - unfold timeperi_to_timetrans. rewrite (proj2 (PyFacts.rleb_false 1 (1/4))) by lra.
    unfold ee_of_f. replace ((PI / 2 - PI / 2) / 2) with 0 by field.
    rewrite TrigFacts.np_tan_eq by (rewrite cos_0; lra).
    rewrite tan_0, Rmult_0_l, atan_0, Rmult_0_r, sin_0. ring.
Qed.

(** * C07 *)

Theorem C07_secondary_means_superior_conjunction : forall tp per e om, 0 <= e < 1 -> per <> 0 ->
  cos ((3 * PI / 2 - om) / 2) <> 0 ->
  is_true_anomaly_at per tp e (timeperi_to_timetrans tp per e om true) (3 * PI / 2 - om).
Proof. exact (fun tp per e om => at_transit tp per e om true). Qed.
Print Assumptions C07_secondary_means_superior_conjunction.

(** Full claim: tp <= result < tp + per. True exactly when cos omega > 0. *)
Theorem C07_first_after_periastron_partial : forall tp per e om, 0 <= e < 1 -> 0 < per ->
  (tp <= timeperi_to_timetrans tp per e om true < tp + per <-> 0 < cos om).
Proof. exact secondary_range. Qed.
Print Assumptions C07_first_after_periastron_partial.

Theorem C07_first_after_periastron_refuted : exists tp per e om, 0 <= e < 1 /\ 0 < per /\
  ~ (tp <= timeperi_to_timetrans tp per e om true < tp + per).
Proof. exact secondary_refuted. Qed.
Print Assumptions C07_first_after_periastron_refuted.

(** What is always true: between half and one and a half periods after tp. *)
Theorem C07_range_partial : forall tp per e om, 0 <= e < 1 -> 0 < per ->
  tp + per / 2 < timeperi_to_timetrans tp per e om true < tp + 3 * per / 2.
Proof. exact secondary_range_all. Qed.
Print Assumptions C07_range_partial.

(** Array arguments: correct when every cos omega > 0, ... *)
Theorem C07_array_partial : forall tps pers es oms,
  length pers = length tps -> length es = length tps -> length oms = length tps ->
  (forall e, In e es -> 0 <= e < 1) -> (forall om, In om oms -> 0 < cos om) ->
  exists l, timeperi_to_timetrans_secondary_array tps pers es oms = Ok l /\ length l = length tps /\
    forall i tp per e om, nth_error tps i = Some tp -> nth_error pers i = Some per ->
      nth_error es i = Some e -> nth_error oms i = Some om ->
      nth_error l i = Some (timeperi_to_timetrans tp per e om true).
Proof. exact secondary_array_ok. Qed.
Print Assumptions C07_array_partial.

(** ... otherwise (two or more entries) a ValueError is raised. *)
Theorem C07_array_error_refuted : forall tps pers es oms om,
  length pers = length tps -> length es = length tps -> length oms = length tps ->
  (2 <= length tps)%nat -> (forall e, In e es -> 0 <= e < 1) -> In om oms -> cos om <= 0 ->
  timeperi_to_timetrans_secondary_array tps pers es oms = Err ValueError.
Proof. exact secondary_array_error. Qed.
Print Assumptions C07_array_error_refuted.

Example C07_ex : 0 < cos 0 /\ cos PI <= 0 /\
  timeperi_to_timetrans_secondary_array [0; 0] [1; 1] [0; 0] [0; PI] = Err ValueError.
Proof.
  rewrite cos_0, cos_PI. split; [lra|]. split; [lra|].
  apply (secondary_array_error _ _ _ _ PI); cbn; auto.
  - intros e [<-|[<-|[]]]; lra.
  - rewrite cos_PI. lra.
Qed.
