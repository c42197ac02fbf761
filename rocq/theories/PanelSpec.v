(** What the panels of an orbit plot should show (C76), in terms of the measurements and of the fit. *)
From Coq Require Import Reals String ZArith Arith List.
From Verif Require Import Py PyFloat Params ParamsSpec ParamsProofs Kepler Basis RVModel Likelihood LikeBuild ModelThms PhaseProofs FastBinSpec TelPlot TelPlotSpec Panels.
Import ListNotations.
Open Scope R_scope.

(** ** The measurements *)
Definition times (ds : list dataset) : list R := concat (map ds_t ds).
Definition tels (ds : list dataset) : list string := concat (map (fun d => map (fun _ => strip_us (ds_suffix d)) (ds_t d)) ds).
(** a number for each measurement, from the number of its data set, its own number, time, velocity and uncertainty *)
Fixpoint per_row (F : nat -> R -> R -> R -> R) (i : nat) (t y e : list R) : list R :=
  match t, y, e with t :: ts, y :: ys, e :: es => F i t y e :: per_row F (S i) ts ys es | _, _, _ => [] end.
Fixpoint tabulate (F : nat -> nat -> R -> R -> R -> R) (k : nat) (ds : list dataset) : list R :=
  match ds with [] => [] | d :: r => (per_row (F k) 0 (ds_t d) (ds_y d) (ds_err d) ++ tabulate F (S k) r)%list end.

(** ** The fit *)
(** velocities due to each planet, trend, and offset, jitter and correction of each data set *)
Record solution := mkSol {
  so_curve : nat -> R -> R; so_dvdt : R; so_curv : R; so_tb : R;
  so_gam : nat -> R; so_jit : nat -> R; so_cor : nat -> nat -> R }.
Definition trend (S : solution) (t : R) : R := so_dvdt S * (t - so_tb S) + so_curv S * (t - so_tb S) ^ 2.
Definition planets (S : solution) (ns : list nat) (t : R) : R := rsum (map (fun n => so_curve S n t) ns).
Definition all_planets (num : nat) : list nat := seq 1 num.
Definition others (num n : nat) : list nat := filter (fun m => negb (Nat.eqb m n)) (seq 1 num).

(** offset and correction taken off *)
Definition velocity (S : solution) (k i : nat) (t y e : R) : R := y - so_gam S k - so_cor S k i.
(** the orbits and the trend too *)
Definition residual (S : solution) (num k i : nat) (t y e : R) : R := velocity S k i t y e - planets S (all_planets num) t - trend S t.
(** only the other planets' and the trend *)
Definition isolated (S : solution) (num n k i : nat) (t y e : R) : R := velocity S k i t y e - planets S (others num n) t - trend S t.
Definition uncertainty (S : solution) (k i : nat) (t y e : R) : R := sqrt (e ^ 2 + so_jit S k ^ 2).

(** the velocity that the orbit solver finds at [t] *)
Definition moves (use_c : bool) (fuel : nat) (el : elements) (t v : R) : Prop :=
  exists x, rv_drive use_c fuel [t] (orb el) = Ok x /\ npelems x = [v].

(** [q] is a fit of [ds]: built as likelihood.py builds it, its planets have the elements [E] *)
Record fit_of (q : fitted) (ds : list dataset) (b : string) (names : list string) (E : nat -> elements) : Prop := {
  fo_built : exists h ps vec h1 vec1,
    layout (ps_num ps) b names (dkeys (ps_items ps)) /\ b_num (ps_basis ps) = ps_num ps /\
    vector_init h ps = Ok vec /\ build_likes h ps vec ds = Ok (h1, q_params q, vec1, q_likes q) /\
    v_indices (q_vec q) = v_indices vec1;
  fo_params : params_ok (q_heap q) (q_params q) b names;
  fo_strict : strict (q_params q) names;
  fo_elements : forall n, (1 <= n <= ps_num (q_params q))%nat -> in_domain (E n) /\ holds (q_heap q) (q_params q) names n (meaning (E n)) }.

(** every value that a plot needs is there: trend, and offset and jitter of each data set; no correlated quantities *)
Definition complete (q : fitted) (ds : list dataset) : Prop :=
  ds <> [] /\ (exists x, value_at (q_heap q) (q_params q) "dvdt" = Some x) /\ (exists x, value_at (q_heap q) (q_params q) "curv" = Some x) /\
  forall d, In d ds -> ds_t d <> [] /\ length (ds_y d) = length (ds_t d) /\ length (ds_err d) = length (ds_t d) /\ ds_dvars d = [] /\
    (exists x, value_at (q_heap q) (q_params q) ("gamma" ++ ds_suffix d) = Some x) /\
    exists x, value_at (q_heap q) (q_params q) ("jit" ++ ds_suffix d) = Some x.

(** [S] is what the parameters of [q] say, at the times [ts] *)
Record solution_of (use_c : bool) (fuel : nat) (q : fitted) (ds : list dataset) (names : list string) (E : nat -> elements)
    (rows : list row) (ts : list R) (S : solution) : Prop := {
  sf_curves : exists E1, (forall n, (1 <= n <= ps_num (q_params q))%nat -> recovered names (E n) (E1 n)) /\
    forall n t, (1 <= n <= ps_num (q_params q))%nat -> In t ts -> moves use_c fuel (E1 n) t (so_curve S n t);
  sf_dvdt : value_at (q_heap q) (q_params q) "dvdt" = Some (so_dvdt S);
  sf_curv : value_at (q_heap q) (q_params q) "curv" = Some (so_curv S);
  sf_tb : so_tb S = q_tb q;
  sf_jit : forall k d, nth_error ds k = Some d -> value_at (q_heap q) (q_params q) ("jit" ++ ds_suffix d) = Some (so_jit S k);
  (** an offset that is not marginalised over *)
  sf_gam : forall k d p, nth_error ds k = Some d -> get_param (q_heap q) (ps_items (q_params q)) ("gamma" ++ ds_suffix d) = Some p ->
    p_lin p = false \/ p_vary p = VBool true -> p_value p = Some (so_gam S k);
  sf_cor : forall k d, nth_error ds k = Some d -> ds_dvars d = [] -> forall i, so_cor S k i = 0;
  (** the likelihood's own residuals *)
  sf_resid : forall k d l, nth_error ds k = Some d -> nth_error (q_likes q) k = Some l ->
    snd (rv_residuals (q_fwd use_c fuel q) l rows) = Ok (per_row (residual S (ps_num (q_params q)) k) 0 (ds_t d) (ds_y d) (ds_err d)) }.

(** the scatter of numbers about their mean *)
Definition spread (l : list R) : R := let m := rsum l / INR (length l) in sqrt (rsum (map (fun x => (x - m) ^ 2) l) / INR (length l)).

(** ** The panels *)
(** one series for each instrument, with its own points *)
Definition drawn {X} (tel : list string) (x : list X) (y e : list R) (ss : list (series X)) : Prop :=
  NoDup (map s_tel ss) /\ (forall t, In t (map s_tel ss) <-> In t tel) /\
  forall s, In s ss -> of_tel tel (s_tel s) x (s_x s) /\ of_tel tel (s_tel s) y (s_y s) /\ of_tel tel (s_tel s) e (s_e s).
(** what is taken off the times: nothing when a time is small (a reduced date), else the epoch *)
Definition shift (epoch : R) (ts : list R) (d : R) : Prop :=
  ((exists t, In t ts /\ t - epoch < -2400000) /\ d = 0) \/
  ((forall t, In t ts -> -2400000 <= t - epoch) /\ ((epoch = 0 /\ d = 2450000) \/ (epoch <> 0 /\ d = epoch))).
(** the position of the latest time, the first of these *)
Definition latest (ts : list R) (i : nat) (t : R) : Prop :=
  nth_error ts i = Some t /\ (forall t', In t' ts -> t' <= t) /\ forall j t', (j < i)%nat -> nth_error ts j = Some t' -> t' < t.

(** the panel of all data, with values [Y] and curve [C] *)
Definition shows (ds : list dataset) (mt : list R) (S : solution) (epoch : R) (highlight : bool)
    (Y : nat -> nat -> R -> R -> R -> R) (C : R -> R) (p : panel R) : Prop :=
  exists d, shift epoch (times ds) d /\
    drawn (tels ds) (map (fun t => t - d) (times ds)) (tabulate Y 0 ds) (tabulate (uncertainty S) 0 ds) (g_series p) /\
    g_curve p = map (fun t => (t - d, C t)) mt /\
    (highlight = false -> g_last p = None) /\
    (highlight = true -> exists i t y, latest (times ds) i t /\ nth_error (tabulate Y 0 ds) i = Some y /\ g_last p = Some (t - d, y)).

(** the reference of the phases: conjunction if the fit has it, else periastron *)
Definition phase_zero (names : list string) (el : elements) (t0 : R) : Prop :=
  (In "tc"%string names /\ t0 = meaning el "tc") \/ (~ In "tc"%string names /\ t0 = el_tp el).
(** twice: phases from -1 to 0 and from 0 to 1 *)
Definition twice_folded (phs : list R) : list R := (map (fun x => x - 1) phs ++ phs)%list.
(** [l] is the curve ordered by phase, each of its points once *)
Definition phase_curve (argsort : list ext -> list nat) (pts : list (ext * R)) (l : list (ext * R)) : Prop :=
  Forall2 (fun i p => nth_error pts i = Some p) (argsort (map fst pts)) l.

(** the panel of planet [n]; bins are wanted unless [nobin] *)
Definition shows_phase (argsort : list ext -> list nat) (ds : list dataset) (mt : list R) (S : solution) (num n : nat) (names : list string) (el : elements) (nobin highlight : bool)
    (p : panel ext) (bins : list (R * ext * ext)) : Prop :=
  exists t0 phs mphs, phase_zero names el t0 /\ Forall2 (is_phase (el_per el) t0) (times ds) phs /\ Forall2 (is_phase (el_per el) t0) mt mphs /\
    (let Y := tabulate (isolated S num n) 0 ds in let U := tabulate (uncertainty S) 0 ds in
     drawn (tels ds ++ tels ds) (map Fin (twice_folded phs)) (Y ++ Y) (U ++ U) (g_series p) /\
     phase_curve argsort (combine (map Fin (twice_folded mphs)) (map (so_curve S n) mt ++ map (so_curve S n) mt)) (g_curve p) /\
     (highlight = false -> g_last p = None) /\
     (highlight = true -> exists i t y ph a, latest (times ds) i t /\ nth_error Y i = Some y /\ is_phase (el_per el) t0 t ph /\
        g_last p = Some (Fin a, y) /\ (a = ph /\ ph <= 1 / 2 \/ a = ph - 1 /\ 1 / 2 < ph)) /\
     ((nobin = true \/ (length (times ds) < 20)%nat) -> bins = []) /\
     (nobin = false -> (20 <= length (times ds))%nat -> exists lo hi out,
        let X := (phs ++ map (fun x => x + 1) phs)%list in
        range_of X lo hi /\ is_binning (combine X (Y ++ Y)) lo hi 25 out /\ bins = map (fun o => (fst (fst o) - 1, snd (fst o), snd o)) out)).

(** ** The times of the curve *)
Definition least (l : list R) (a : R) : Prop := In a l /\ forall x, In x l -> a <= x.
Definition greatest (l : list R) (a : R) : Prop := In a l /\ forall x, In x l -> x <= a.
(** [n] times from [lo] to [hi], evenly spaced *)
Definition grid (lo hi : R) (n : nat) (ts : list R) : Prop :=
  length ts = n /\ forall i t, nth_error ts i = Some t -> INR (n - 1) * (t - lo) = INR i * (hi - lo).
(** the longest period; without planets, the time covered by the data *)
Definition longest (num : nat) (E : nat -> elements) (span P : R) : Prop :=
  (num = 0%nat /\ P = span) \/ greatest (map (fun n => el_per (E n)) (seq 1 num)) P.
