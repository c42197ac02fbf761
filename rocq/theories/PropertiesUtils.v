(** Property theorems C41-C45, C49, C50, C53, C54: utility functions. *)
From Coq Require Import Reals String ZArith Lra Lia Permutation Bool List.
From Verif Require Import Py PyFacts PyFloat Params ParamsSpec Kepler Basis BasisThms RVModel Timebin TimebinSpec TimebinProofs BintelsProofs
  Phase PhaseProofs Dates DatesProofs Mass MassProofs Stats StatsProofs Format FormatProofs Workdir UtilsThms.
Import ListNotations.
Open Scope R_scope.


(** * C41 *)
(** is_argsort: any sorting permutation; averages: inverse-variance mean, inside the range
    of its points, error at most each member's; spaced: each bin starts at least binsize
    after the start of the preceding one. *)
Theorem C41_partition : forall argsort pts binsize fuel,
  is_argsort argsort -> 0 < binsize -> pts <> [] ->
  Forall (fun p => 0 < pt_e p) pts -> (length pts < fuel)%nat ->
  exists bins out, timebin argsort fuel pts binsize = Ok out /\
    Permutation (concat bins) pts /\ ~ In [] bins /\ Forall2 averages bins out /\ spaced binsize bins /\
    (forall b p q, In b bins -> In p b -> In q b -> Rabs (pt_t p - pt_t q) < binsize).
Proof. exact timebin_full. Qed.
Print Assumptions C41_partition.

Example C41_partition_ex : is_argsort argsort_ex /\ 0 < 1 /\ some_pts <> [] /\ Forall (fun p => 0 < pt_e p) some_pts /\ (length some_pts < 5)%nat.
Proof. split; [exact argsort_ex_ok|]. split; [lra|exact some_pts_ok]. Qed.

Theorem C41_inverse_variance : forall argsort pts binsize fuel out,
  is_argsort argsort -> 0 < binsize -> pts <> [] ->
  Forall (fun p => 0 < pt_e p) pts -> (length pts < fuel)%nat -> timebin argsort fuel pts binsize = Ok out ->
  rsum (map (fun o => / pt_e o ^ 2) out) = rsum (map (fun p => / pt_e p ^ 2) pts) /\
  rsum (map (fun o => pt_m o / pt_e o ^ 2) out) = rsum (map (fun p => pt_m p / pt_e p ^ 2) pts) /\
  (length out <= length pts)%nat.
Proof. exact timebin_inverse_variance. Qed.
Print Assumptions C41_inverse_variance.

Example C41_inverse_variance_ex : is_argsort argsort_ex /\ 0 < 1 /\ some_pts <> [] /\ Forall (fun p => 0 < pt_e p) some_pts /\ (length some_pts < 5)%nat.
Proof. split; [exact argsort_ex_ok|]. split; [lra|exact some_pts_ok]. Qed.

(** For binsize <= 0 the loop never ends, whatever the fuel. *)
Theorem C41_nonpositive : forall argsort pts binsize fuel,
  is_argsort argsort -> binsize <= 0 -> pts <> [] ->
  timebin argsort fuel pts binsize = Err OutOfFuel.
Proof. exact timebin_nonpositive. Qed.
Print Assumptions C41_nonpositive.

Example C41_nonpositive_ex : is_argsort argsort_ex /\ 0 <= 0 /\ some_pts <> [].
Proof. split; [exact argsort_ex_ok|]. split; [lra|easy]. Qed.

(** * C42 *)
(** tels: the distinct instruments in order of first appearance. *)
Theorem C42_separate : forall argsort fuel pts telvec binsize tels,
  is_argsort argsort -> 0 < binsize ->
  Forall (fun p => 0 < pt_e p) pts -> length telvec = length pts -> (length pts < fuel)%nat -> firsts telvec tels ->
  exists bs, Forall2 (fun tel b => timebin argsort fuel (select telvec tel pts) binsize = Ok b) tels bs /\
    bintels argsort fuel pts telvec binsize =
      Ok (concat bs, concat (map (fun tb => repeat (fst tb) (length (snd tb))) (combine tels bs))).
Proof. exact bintels_spec. Qed.
Print Assumptions C42_separate.

Example C42_separate_ex : firsts ["k"; "j"; "k"; "a"]%string ["k"; "j"; "a"]%string /\ length ["k"; "j"; "k"; "a"]%string = length some_pts.
Proof. split; [repeat constructor|reflexivity]. Qed.

(** The points of an instrument are those at its own positions. *)
Theorem C42_select : forall {A} telvec tel (l : list A) x,
  In x (select telvec tel l) <-> exists i, nth_error telvec i = Some tel /\ nth_error l i = Some x.
Proof. exact (@select_in). Qed.
Print Assumptions C42_select.

Example C42_select_ex : select ["k"; "j"; "k"]%string "k" [1; 2; 3] = [1; 3].
Proof. reflexivity. Qed.

(** Every vector of labels has such a list (for C42_separate). *)
Theorem C42_instruments : forall l : list string, exists r, firsts l r /\ NoDup r /\ forall y, In y r <-> In y l.
Proof. exact (fun l => let (r, F) := firsts_exist (length l) l (le_n _) in ex_intro _ r (conj F (conj (firsts_nodup l r F) (firsts_in l r F)))). Qed.
Print Assumptions C42_instruments.

(** * C43 *)
(** is_phase P t0 t ph: 0 <= ph < 1 and t = t0 + P*(k+ph) for an integer k; reference: tc if
    present, else tp. *)
Theorem C43_phase : forall h d t n cat P t0,
  P <> 0 -> has h d (key "per" n) P -> reference h d n t0 ->
  exists phs, Forall2 (is_phase P t0) t phs /\
    t_to_phase h d t n cat = Ok (map Fin (if cat then (phs ++ map (fun x => x + 1) phs)%list else phs)).
Proof. exact t_to_phase_spec. Qed.
Print Assumptions C43_phase.

Example C43_phase_ex : 4 <> 0 /\ has (ex_heap ["per"; "tc"; "e"; "w"; "k"]%string (fun _ => meaning (mkEl 4 10 0 0 1)))
  (ps_items (ex_ps "per tc e w k" ["per"; "tc"; "e"; "w"; "k"]%string)) (key "per" 1) 4.
Proof. split; [lra|]. eexists. split; reflexivity. Qed.

(** Hence the phase is determined by t. *)
Theorem C43_phase_unique : forall P t0 t ph ph',
  P <> 0 -> is_phase P t0 t ph -> is_phase P t0 t ph' -> ph = ph'.
Proof. exact is_phase_unique. Qed.
Print Assumptions C43_phase_unique.

Example C43_phase_unique_ex : 4 <> 0 /\ is_phase 4 1 11 (1 / 2).
Proof. split; [lra|]. split; [lra|]. exists 2%Z. lra. Qed.

(** Times whole periods apart have the same phase. *)
Theorem C43_periodic : forall P t0 t ph,
  is_phase P t0 t ph -> forall m, is_phase P t0 (t + P * IZR m) ph.
Proof. exact phase_periodic. Qed.
Print Assumptions C43_periodic.

(** The reference time has phase 0. *)
Theorem C43_reference : forall P t0,
  is_phase P t0 t0 0.
Proof. exact phase_reference. Qed.
Print Assumptions C43_reference.

(** Full claim: the same for t_to_phase_vector.  Proved: the phases it returns are those with
    respect to the time of periastron, for a set in any fitting basis. *)
Theorem C43_vector_partial : forall h ps b names (E : nat -> elements) t n cat,
  params_ok h ps b names -> strict ps names -> flags_ok h ps -> (1 <= n <= ps_num ps)%nat ->
  (forall n, (1 <= n <= ps_num ps)%nat -> in_domain (E n) /\ holds h ps names n (meaning (E n))) ->
  exists vec el phs, vector_init h ps = Ok vec /\ recovered names (E n) el /\
    Forall2 (is_phase (el_per (E n)) (el_tp el)) t phs /\
    t_to_phase_vector ps (v_vector vec) t (Z.of_nat n) cat = Ok (map Fin (if cat then (phs ++ map (fun x => x + 1) phs)%list else phs)).
Proof. exact t_to_phase_vector_spec. Qed.
Print Assumptions C43_vector_partial.

Example C43_vector_ex : let names := ["per"; "tc"; "e"; "w"; "k"]%string in let E := mkEl 4 10 0 0 1 in
  params_ok (ex_heap names (fun _ => meaning E)) (ex_ps "per tc e w k" names) "per tc e w k" names /\
  strict (ex_ps "per tc e w k" names) names /\ in_domain E.
Proof.
  intros names E. assert (In ("per tc e w k"%string, names) FIT_BASES) as HF by (cbn; tauto).
  split; [now apply ex_params_ok|]. split; [now apply ex_strict|]. unfold in_domain; cbn; lra.
Qed.

(** At the transit time t_to_phase gives 0 and t_to_phase_vector 1/4. *)
Theorem C43_vector_refuted : let names := ["per"; "tc"; "e"; "w"; "k"]%string in
  let E := mkEl 4 10 0 0 1 in exists vec,
  vector_init (ex_heap names (fun _ => meaning E)) (ex_ps "per tc e w k" names) = Ok vec /\
  t_to_phase (ex_heap names (fun _ => meaning E)) (ps_items (ex_ps "per tc e w k" names)) [11] 1 false = Ok [Fin 0] /\
  t_to_phase_vector (ex_ps "per tc e w k" names) (v_vector vec) [11] 1 false = Ok [Fin (1/4)].
Proof. exact phase_functions_differ. Qed.
Print Assumptions C43_vector_refuted.

(** Missing period; neither tc nor tp (for example the logper bases). *)
Theorem C43_errors : forall h d t n cat,
  (~ In (key "per" n) (dkeys d) -> t_to_phase h d t n cat = Err (KeyError (key "per" n))) /\
  (forall P, has h d (key "per" n) P -> ~ In (key "tc" n) (dkeys d) -> ~ In (key "tp" n) (dkeys d) ->
     t_to_phase h d t n cat = Err UnboundLocalError).
Proof. exact t_to_phase_errors. Qed.
Print Assumptions C43_errors.

(** * C44 *)
(** Full claim: for the float arithmetic of the code. Proved: in exact arithmetic; in binary64 see C44_binary64_partial and C44_binary64_refuted. *)
Theorem C44_round_trip_partial : forall d,
  dt_valid d -> whole_seconds d -> jd2date exact (date2jd exact d) = Ok d.
Proof. exact exact_round_trip. Qed.
Print Assumptions C44_round_trip_partial.

Example C44_round_trip_ex : dt_valid one_second /\ whole_seconds one_second.
Proof. split; [unfold dt_valid, day_us; cbn; lia|reflexivity]. Qed.

(** In binary64 (every operation rounded) the round trip is within 61 microseconds. *)
Theorem C44_binary64_partial : forall d,
  dt_valid d -> (2 <= dt_ord d)%Z -> whole_seconds d ->
  exists d', jd2date rnd64 (date2jd rnd64 d) = Ok d' /\ dt_valid d' /\ (Z.abs (total_us d' - total_us d) <= 61)%Z.
Proof. exact round_trip64. Qed.
Print Assumptions C44_binary64_partial.

Example C44_binary64_ex : dt_valid one_second /\ (2 <= dt_ord one_second)%Z /\ whole_seconds one_second.
Proof. split; [unfold dt_valid, day_us; cbn; lia|]. split; [cbn; lia|reflexivity]. Qed.

(** 2000-01-01 12:00:01 does not come back. *)
Theorem C44_binary64_refuted : dt_valid one_second /\ whole_seconds one_second /\
  exists d', jd2date rnd64 (date2jd rnd64 one_second) = Ok d' /\ d' <> one_second.
Proof. exact round_trip64_moves. Qed.
Print Assumptions C44_binary64_refuted.

(** In binary64; secs counts whole seconds. *)
Theorem C44_increasing : forall d d',
  dt_valid d -> dt_valid d' -> (secs d < secs d')%Z -> date2jd rnd64 d < date2jd rnd64 d'.
Proof. exact date2jd64_increasing. Qed.
Print Assumptions C44_increasing.

Example C44_increasing_ex : dt_valid j2000 /\ dt_valid one_second /\ (secs j2000 < secs one_second)%Z.
Proof. unfold dt_valid, day_us. repeat split; vm_compute; congruence. Qed.

(** The Julian date of J2000 is 2451545; one day per 86400 seconds. *)
Theorem C44_value : forall d,
  date2jd exact d = 2451545 + IZR (secs d) / 86400.
Proof. exact exact_date2jd. Qed.
Print Assumptions C44_value.

Theorem C44_day_shift : forall d n,
  date2jd exact (mkDT (dt_ord d + n) (dt_us d)) = date2jd exact d + IZR n.
Proof. exact exact_day_shift. Qed.
Print Assumptions C44_day_shift.

(** * C45 *)
(** amp_row: the row (semi_amplitude(m,P,M,e), P, M, e).  The root finder is arbitrary: it is not
    called.  light: at most a tenth of the stellar mass. *)
Theorem C45_inverse : forall root c units u (l : list (R * R * R * R)),
  uconst_ok c -> Forall planet_ok l -> in_mjup c units = Ok u ->
  Forall (fun q => let '(m, P, M, e) := q in light c (m * u) M) l ->
  exists rows, map_res (amp_row c units) l = Ok rows /\
    Msini root c units rows = Ok (map (fun q => fst (fst (fst q))) l).
Proof. exact Msini_inverts. Qed.
Print Assumptions C45_inverse.

Example C45_inverse_ex : uconst_ok some_const /\ Forall planet_ok [(1, 365, 1, 0); (2, 10, 1, 1 / 2)] /\ in_mjup some_const "Earth" = Ok (1 / 318) /\
  Forall (fun q => let '(m, P, M, e) := q in light some_const (m * (1 / 318)) M) [(1, 365, 1, 0); (2, 10, 1, 1 / 2)].
Proof.
  split; [exact some_const_ok|]. split; [repeat constructor; lra|]. split; [reflexivity|].
  repeat constructor; unfold light, some_const; cbn; lra.
Qed.

(** In the low-mass branch (no element above a tenth of the stellar mass, before and after). *)
Theorem C45_linear : forall root c units l k,
  0 < k ->
  existsb (heavy c) l = false -> existsb (heavy c) (map (fun x => mkMrow (k * r_K x) (r_P x) (r_M x) (r_e x)) l) = false ->
  Msini root c units (map (fun x => mkMrow (k * r_K x) (r_P x) (r_M x) (r_e x)) l)
  = match Msini root c units l with Ok ms => Ok (map (Rmult k) ms) | Err e => Err e end.
Proof. exact Msini_linear. Qed.
Print Assumptions C45_linear.

Theorem C45_third_law : forall c P M,
  uconst_ok c -> 0 < P -> 0 < M ->
  0 < semi_major_axis c P M /\
  (semi_major_axis c P M * c_au c) ^ 3 = c_G c * (M * c_msun c) * (P * 86400) ^ 2 / (4 * PI ^ 2).
Proof. exact third_law. Qed.
Print Assumptions C45_third_law.

Example C45_third_law_ex : uconst_ok some_const /\ 0 < 365 /\ 0 < 1.
Proof. split; [exact some_const_ok|lra]. Qed.

(** Mass over volume of a sphere; 1000 kg/m^3 = 1 g/cm^3. *)
Theorem C45_density : forall c units m r,
  uconst_ok c -> 0 < r -> forall rho, density c units m r = Ok rho ->
  exists um ur, 0 < um /\ 0 < ur /\ ((lower units = "earth"%string /\ um = c_mearth c /\ ur = c_rearth c) \/
                 (lower units = "jupiter"%string /\ um = c_mjup c /\ ur = c_rjup c)) /\
    rho * 1000 * (4 / 3 * PI * (r * ur) ^ 3) = m * um.
Proof. exact density_formula. Qed.
Print Assumptions C45_density.

Example C45_density_ex : exists rho, density some_const "EARTH" 1 1 = Ok rho.
Proof. eexists. reflexivity. Qed.

Theorem C45_density_scaling : forall c units m r k j rho,
  uconst_ok c -> 0 < r -> 0 < j -> density c units m r = Ok rho ->
  density c units (k * m) (j * r) = Ok (k / j ^ 3 * rho).
Proof. exact density_scaling. Qed.
Print Assumptions C45_density_scaling.

Example C45_density_scaling_ex : exists rho, density some_const "Jupiter" 2 1 = Ok rho.
Proof. eexists. reflexivity. Qed.

(** Any other unit string raises. *)
Theorem C45_units : forall root c units l,
  lower units <> "jupiter"%string -> lower units <> "earth"%string -> Msini root c units l = Err PlainException.
Proof. exact Msini_units. Qed.
Print Assumptions C45_units.

Example C45_units_ex : lower "Solar" <> "jupiter"%string /\ lower "Solar" <> "earth"%string.
Proof. split; discriminate. Qed.

(** With a planet above a tenth of the stellar mass: if the root finder finds positive zeros the
    result solves the two-body relation, and the solution is unique. *)
Theorem C45_massive : forall root c units l,
  uconst_ok c -> Forall row_ok l -> existsb (heavy c) l = true ->
  (forall x, In x l -> 0 < root (msini_func c x) (c_mjup c) /\ msini_func c x (root (msini_func c x) (c_mjup c)) = 0) ->
  lower units = "jupiter"%string ->
  exists ms, Msini root c units l = Ok ms /\
    Forall2 (fun x m => 0 < m /\ two_body c x (m * c_mjup c) /\ forall m', 0 < m' -> two_body c x (m' * c_mjup c) -> m' = m) l ms.
Proof. exact Msini_heavy. Qed.
Print Assumptions C45_massive.

Example C45_massive_ex : forall x, row_ok x -> exists m, 0 < m /\ msini_func some_const x m = 0.
Proof. intros x H. exact (heavy_exists some_const some_const_ok x H). Qed.

(** The relation always has a positive solution. *)
Theorem C45_massive_solution : forall c, uconst_ok c -> forall x, row_ok x -> exists m, 0 < m /\ msini_func c x m = 0 /\ two_body c x m.
Proof. exact (fun c C x X => let (m, H) := heavy_exists c C x X in ex_intro _ m (conj (proj1 H) (conj (proj2 H) (proj1 (func_two_body c C x X m (proj1 H)) (proj2 H))))). Qed.
Print Assumptions C45_massive_solution.

Example C45_massive_solution_ex : uconst_ok some_const /\ row_ok (mkMrow 50000 365 1 0).
Proof. split; [exact some_const_ok|]. unfold row_ok. cbn. lra. Qed.

(** * C49 *)
(** Full claim: row i of the result is the model at the parameters of drawn row i.  Proved: every
    row is the model at the parameters it had before the call, whatever the chain. *)
Theorem C49_draws_partial : forall use_c fuel h m order c t draws v out,
  rvmodel_call use_c fuel m t None = Ok v -> draw_models use_c fuel h m order c t draws = Ok out ->
  out = repeat v (length draws) /\ draws <> [].
Proof. exact draws_all_same. Qed.
Print Assumptions C49_draws_partial.

(** A linear trend: the chain says 5 per day, the drawn model is flat. *)
Theorem C49_draws_refuted : exists m m5,
  rvmodel_init (tr_heap 0) tr_ps 0 = Ok m /\ rvmodel_init (tr_heap 5) tr_ps 0 = Ok m5 /\
  draw_models true 10 (tr_heap 0) m None [(0%nat, [("dvdt"%string, 5)])] [1] [0%nat] = Ok [[0]] /\
  rvmodel_call true 10 m5 [1] None = Ok [5].
Proof. exact draw_ignores_chain. Qed.
Print Assumptions C49_draws_refuted.

(** * C50 *)
Theorem C50_nonneg : forall angular l,
  l <> [] -> exists m lo hi,
  fst (geterr angular l) = Ok (m, lo, hi) /\ 0 <= lo /\ 0 <= hi.
Proof. exact geterr_nonneg. Qed.
Print Assumptions C50_nonneg.

Example C50_nonneg_ex : three <> [].
Proof. easy. Qed.

(** is_rank l k q: q is a sample, at most k samples are below it, more than k are not above it. *)
Theorem C50_quantiles : forall l,
  l <> [] -> exists m lo hi, geterr false l = (Ok (m, lo, hi), l) /\
  is_median l m /\ is_rank l (159 * length l / 1000) (m - lo) /\ is_rank l (841 * length l / 1000) (m + hi).
Proof. exact geterr_quantiles. Qed.
Print Assumptions C50_quantiles.

Example C50_quantiles_ex : three <> [] /\ (841 * length three / 1000 = 2)%nat.
Proof. split; [easy|reflexivity]. Qed.

(** So the quantiles are determined. *)
Theorem C50_rank_unique : forall l k q q',
  is_rank l k q -> is_rank l k q' -> q = q'.
Proof. exact is_rank_unique. Qed.
Print Assumptions C50_rank_unique.

Example C50_rank_unique_ex : is_rank [2; 1] 0 1.
Proof.
  repeat split; [right; now left| |]; unfold count; cbn [filter].
  - rewrite (proj2 (rltb_false 2 1)), (proj2 (rltb_false 1 1)) by lra. cbn. lia.
  - rewrite (proj2 (rleb_false 2 1)), (proj2 (rleb_true 1 1)) by lra. cbn. lia.
Qed.

(** Shifts and positive scalings (angular=False). *)
Theorem C50_affine : forall k c l m lo hi,
  0 < k -> geterr false l = (Ok (m, lo, hi), l) ->
  geterr false (map (fun x => k * x + c) l) = (Ok (k * m + c, k * lo, k * hi), map (fun x => k * x + c) l).
Proof. exact geterr_affine. Qed.
Print Assumptions C50_affine.

Example C50_affine_ex : 0 < 2 /\ exists m lo hi, geterr false three = (Ok (m, lo, hi), three).
Proof. split; [lra|]. rewrite geterr_plain by easy. eauto. Qed.

(** Both branches. *)
Theorem C50_order : forall angular l l',
  Permutation l l' -> fst (geterr angular l) = fst (geterr angular l').
Proof. exact geterr_perm. Qed.
Print Assumptions C50_order.

Example C50_order_ex : Permutation [1; 2] [2; 1].
Proof. apply perm_swap. Qed.

(** Full claim: the caller's array is not modified. Proved: for angular=False. *)
Theorem C50_caller_partial : forall l,
  snd (geterr false l) = l.
Proof. exact geterr_keeps. Qed.
Print Assumptions C50_caller_partial.

(** For angular=True. *)
Theorem C50_caller_refuted : exists l, l <> [] /\ snd (geterr true l) <> l.
Proof. exact geterr_changes_caller. Qed.
Print Assumptions C50_caller_refuted.

(** What the angular branch does to the array: whole turns only. *)
Theorem C50_turns : forall l,
  Forall2 (fun x y => y = x \/ y = x + 2 * PI \/ y = x - 2 * PI) l (wrap l).
Proof. exact wrap_turns. Qed.
Print Assumptions C50_turns.

(** * C53 *)
(** k is the decade of x; the last retained digit has weight 10^(k+1-sig). The sign clause needs
    sig >= 1. *)
Theorem C53_round_sig : forall x sig,
  x <> 0 -> exists k, p10 k <= Rabs x < p10 (k + 1) /\
  (exists z, round_sig x sig = IZR z * p10 (k + 1 - sig)) /\
  Rabs (round_sig x sig - x) <= / 2 * p10 (k + 1 - sig) /\
  ((1 <= sig)%Z -> (0 < x -> 0 < round_sig x sig) /\ (x < 0 -> round_sig x sig < 0)).
Proof. exact round_sig_spec. Qed.
Print Assumptions C53_round_sig.

Example C53_round_sig_ex : 123 <> 0 /\ (1 <= 2)%Z.
Proof. split; [lra|lia]. Qed.

(** No multiple of the last digit is nearer. *)
Theorem C53_nearest : forall x n k,
  Rabs (round_dec x n - x) <= Rabs (IZR k * p10 (- n) - x).
Proof. exact round_dec_best. Qed.
Print Assumptions C53_nearest.

Theorem C53_zero : forall sig,
  round_sig 0 sig = 0.
Proof. exact round_sig_zero. Qed.
Print Assumptions C53_zero.

Theorem C53_time : forall t v u,
  time_print t = (v, u) -> exists s, unit_seconds u = Some s /\ v * s = t /\
  (s = 1 -> t <= 60) /\ (s = 60 -> 1 < v <= 60) /\ (s = 3600 -> 1 < v <= 24) /\ (s = 86400 -> 1 < v).
Proof. exact time_print_duration. Qed.
Print Assumptions C53_time.

Example C53_time_ex : time_print 30 = (30, "seconds"%string).
Proof. unfold time_print. now rewrite (proj2 (rltb_false 60 30)) by lra. Qed.

(** For any decimal representation of the errors. *)
Theorem C53_sigfig : forall dexp ends0 med errlow errhigh,
  exists F, forall fuel, (F <= fuel)%nat ->
  exists m lo hi, sigfig dexp ends0 fuel med errlow errhigh = Ok (m, lo, hi).
Proof. exact sigfig_terminates. Qed.
Print Assumptions C53_sigfig.

(** Errors with at least two decimals. *)
Theorem C53_sigfig_value : forall dexp ends0 fuel med lo hi m lo' hi',
  med <> 0 -> (dexp lo < -1)%Z -> (dexp hi < -1)%Z ->
  sigfig dexp ends0 fuel med lo (Some hi) = Ok (m, lo', hi') ->
  lo' = lo /\ hi' = hi /\ m <> 0 /\ Rabs (m - med) <= / 2 * p10 (Z.min (dexp lo) (dexp hi)).
Proof. exact sigfig_value. Qed.
Print Assumptions C53_sigfig_value.

Example C53_sigfig_value_ex : exists m lo hi fuel, sigfig (fun _ => (-2)%Z) (fun _ => false) fuel (1 / 1000) (12 / 100) (Some (13 / 100)) = Ok (m, lo, hi).
Proof. destruct (sigfig_terminates (fun _ => (-2)%Z) (fun _ => false) (1 / 1000) (12 / 100) (Some (13 / 100))) as (F & H).
  destruct (H F (le_n _)) as (m & lo & hi & E). eauto. Qed.

(** * C54 *)
(** Full claim: whatever the block does.  Proved: if the block does not remove the original
    directory.  The block is arbitrary and may raise. *)
Theorem C54_restores_partial : forall {A} dir (block : world -> world * res A) w,
  absolute (w_cwd w) -> 
  let '(w', r) := with_dir dir block w in
  (w_dirs w (w_cwd w) = true -> (forall w1, w_dirs w1 = w_dirs w -> w_dirs (fst (block w1)) (w_cwd w) = true) -> w_cwd w' = w_cwd w) /\
  (w_dirs w (w_cwd w) = true -> w_dirs w (resolve w dir) = true ->
     let '(w2, r2) := block (mkWorld (resolve w dir) (w_dirs w)) in
     w_dirs w2 (w_cwd w) = true -> r = r2 /\ w_dirs w' = w_dirs w2) /\
  (w_dirs w (w_cwd w) = false \/ w_dirs w (resolve w dir) = false -> w' = w /\ r = Err FileNotFoundError).
Proof. exact (@with_dir_restores). Qed.
Print Assumptions C54_restores_partial.

Example C54_restores_ex : absolute (w_cwd (mkWorld "/home" (fun _ => true))).
Proof. reflexivity. Qed.

(** Any nesting of blocks that remove no directory. *)
Theorem C54_nested : forall {A} dirs (block : world -> world * res A) w,
  dirs <> [] -> keeps block -> absolute (w_cwd w) ->
  w_cwd (fst (with_dirs dirs block w)) = w_cwd w.
Proof. exact (@nested_restores). Qed.
Print Assumptions C54_nested.

Example C54_nested_ex : ["a"; "/b"]%string <> [] /\ keeps (fun w : world => (mkWorld "/x" (w_dirs w), @Err nat ValueError)) /\ absolute "/home".
Proof. split; [easy|]. split; [intros w p H; exact H|reflexivity]. Qed.

(** The block removes the original directory: neither directory nor result survive. *)
Theorem C54_removed_refuted : exists (w : world) (block : world -> world * res nat),
  absolute (w_cwd w) /\ w_dirs w (w_cwd w) = true /\
  with_dir "/tmp" block w = (mkWorld "/tmp" (fun p => String.eqb p "/tmp"), Err FileNotFoundError) /\
  snd (block (mkWorld "/tmp" (w_dirs w))) = Ok 1%nat.
Proof. exact not_restored. Qed.
Print Assumptions C54_removed_refuted.
