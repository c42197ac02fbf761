(** C88: what is shown while sampling.  The full statement is that every status message shows how much of the run is done, as a
    bar of fifty places, a number of steps of the total and a percentage, with the share of accepted proposals and the steps per
    second, and that the last message says what the tests said.  Runs make more steps than the total, so the bar grows beyond
    its frame, and the speed leaves out one step of every round. *)
From Coq Require Import Reals String Ascii ZArith Bool Lia Lra List.
From Verif Require Import Py PyFloat Params Mcmc McmcSpec McmcProofs McmcThms Format Progress ProgressSpec ProgressProofs ProgressThms.
Import ListNotations.
Open Scope string_scope.

(** the bar up to the total *)
Theorem C88_bar : forall step tot w, (0 < tot)%Z -> (0 <= step <= tot)%Z -> (0 <= w)%Z ->
  exists k s, progress_bar step tot w = Ok s /\ bar_of k (Z.to_nat w) s /\ (Z.of_nat k <= w)%Z /\ String.length s = (2 + Z.to_nat w)%nat /\
    (2 * Z.abs (Z.of_nat k * tot - w * step) <= tot)%Z.
Proof. exact bar_inside. Qed.
Print Assumptions C88_bar.

Theorem C88_bar_grows : forall a b tot w ka kb sa sb, (0 < tot)%Z -> (0 <= a <= b)%Z -> (0 <= w)%Z ->
  progress_bar a tot w = Ok sa -> progress_bar b tot w = Ok sb -> bar_of ka (Z.to_nat w) sa -> bar_of kb (Z.to_nat w) sb -> (ka <= kb)%nat.
Proof. exact bar_grows. Qed.
Print Assumptions C88_bar_grows.

Example C88_bar_ex : progress_bar 1 4 10 = Ok "[==        ]" /\ progress_bar 3 4 10 = Ok "[========  ]" /\ progress_bar 4 4 10 = Ok "[==========]".
Proof. repeat split; reflexivity. Qed.

(** the message of every round of a new run: the bar and the percentage show the share of the requested steps *)
Theorem C88_line : forall tr acor g fmt inits prev r h m d i m3 l, length inits = g_ensembles g -> (2 <= g_check g)%nat -> (0 < g_nrun g)%Z -> (0 < nw_of g)%nat -> (0 < g_ensembles g)%nat ->
  after tr acor g (start g inits prev) r h m -> round_shown tr acor g fmt d i m = Ok (m3, l) ->
  let made := (S r * g_check g)%nat in
  let share := (INR made / IZR (g_nrun g))%R in
  let steps pct := dec (Z.of_nat (made * nw_of g * g_ensembles g)) ++ "/" ++ dec (g_nrun g * Z.of_nat (nw_of g * g_ensembles g)) ++ " (" ++ pct ++ "%) steps complete; " in
  match d with
  | Headless => forall s, ~ In (Shown s) l
  | Notebook => exists pct rest l', l = Shown (steps pct ++ rest) :: l' /\ shows pct (100 * share)
  | Terminal => exists bar k pct rest l', l = Shown ((bar ++ " " ++ steps pct) ++ nl ++ rest) :: l' /\ shows pct (100 * share) /\
      bar_of k 50 bar /\ (Rabs (INR k - 50 * share) <= 1 / 2)%R /\ ((made <= Z.to_nat (g_nrun g))%nat -> String.length bar = 52%nat)
  end.
Proof. exact line. Qed.
Print Assumptions C88_line.

(** its numbers are those of the state after the round's test *)
Theorem C88_numbers : forall tr acor g fmt d i m m3 l s, round_shown tr acor g fmt d i m = Ok (m3, l) -> In (Shown s) l ->
  exists m1 m2 a sep z, sample_round tr g m = Ok m1 /\ convergence_check acor g m1 = Ok m2 /\ (sep = "" \/ sep = nl) /\
  s = a ++ "Running " ++ fmt ".2f" (Fin ((INR (g_check g) - 1) * INR (nw_of g) * INR (g_ensembles g) / i)) ++ " steps/s; Mean acceptance rate = " ++
      fmt "3.1f" (Fin (accepted g m2)) ++ "%; Min Auto Factor = " ++ fmt "3.0f" (m_minafactor m2) ++ "; " ++ sep ++
      "Max Auto Relative-Change = " ++ fmt "5.3" (m_maxarchange m2) ++ "; Min Tz = " ++ fmt ".1f" (m_mintz m2) ++ "; Max G-R = " ++ fmt "5.3f" (m_maxgr m2) ++ z.
Proof. exact numbers_shown. Qed.
Print Assumptions C88_numbers.

Example C88_numbers_ex : exists m3 s l, round_shown tr1 acor1 (g_never 2 3) (fun _ _ => "x") Notebook 1 (start (g_never 2 3) [p_a] None) = Ok (m3, Shown s :: l).
Proof. exact numbers_example. Qed.

(** A run that is not stopped early ends beyond its total: two steps requested, three made, a bar of 75 in a frame of 50. *)
Theorem C88_beyond_refuted : forall g n, (2 <= g_check g)%nat -> num_run g = Ok n -> (Z.of_nat (g_check g) - 1 < 2 * n)%Z ->
  (g_nrun g < n * Z.of_nat (g_check g))%Z.
Proof. exact beyond. Qed.
Print Assumptions C88_beyond_refuted.

Theorem C88_bar_refuted : forall fmt clock, (forall r, clock r <> 0%R) -> exists m bar rest l,
  rounds_shown tr1 acor1 (g_never 2 3) fmt Terminal clock 1 0 (start (g_never 2 3) [p_a] None) =
    Ok (m, Shown ((bar ++ " 6/4 (150.0%) steps complete; ") ++ nl ++ rest) :: l) /\ num_run (g_never 2 3) = Ok 1%Z /\
  bar_of 75 50 bar /\ String.length bar = 77%nat.
Proof. exact one_and_a_half. Qed.
Print Assumptions C88_bar_refuted.

Example C88_beyond_ex : num_run (mkCfg 50 5 10000 8 50 th0 (Fin 25) (Fin (103/100)) 1000 5 1) = Ok 204%Z /\ (50 - 1 < 2 * 204)%Z.
Proof. split; [reflexivity|lia]. Qed.

(** the chains do not depend on whether anything is shown *)
Theorem C88_same : forall tr acor g fmt d clock n,
  (forall r m m' l, rounds_shown tr acor g fmt d clock n r m = Ok (m', l) -> rounds tr acor g n m = Ok m') /\
  (total g <> 0%Z -> (forall r, clock r <> 0%R) -> forall r m m', rounds tr acor g n m = Ok m' -> exists l, rounds_shown tr acor g fmt d clock n r m = Ok (m', l)).
Proof. exact (fun tr acor g fmt d clock n => conj (shown_same tr acor g fmt d clock n) (shown_ok tr acor g fmt d clock n)). Qed.
Print Assumptions C88_same.

Example C88_same_ex : total (g_never 2 3) = 4%Z /\ exists m, rounds tr1 acor1 (g_never 2 3) 1 (start (g_never 2 3) [p_a] None) = Ok m.
Proof. exact same_example. Qed.

(** the mean acceptance rate is the share of accepted proposals since the start or the end of burn-in, in percent *)
Theorem C88_accepted : forall tr acor g inits prev r h m m1 m2, counts (nw_of g) tr -> length inits = g_ensembles g -> (2 <= g_check g)%nat -> (0 < nw_of g)%nat -> (0 < g_ensembles g)%nat ->
  after tr acor g (start g inits prev) r h m -> sample_round tr g m = Ok m1 -> convergence_check acor g m1 = Ok m2 ->
  exists it, (0 < it)%nat /\ (forall s, In s (m_samplers m2) -> length (sp_chain s) = it /\ length (sp_acc s) = nw_of g) /\
    accepted g m2 = (100 * (INR (all_accepted (m_samplers m2)) / INR (g_ensembles g * nw_of g * it)))%R /\ (0 <= accepted g m2 <= 100)%R.
Proof. exact accepted_share. Qed.
Print Assumptions C88_accepted.

Example C88_accepted_ex : counts (nw_of (g_never 2 3)) tr_half /\ exists m1 m2,
  sample_round tr_half (g_never 2 3) (start (g_never 2 3) [p_a] None) = Ok m1 /\ convergence_check acor1 (g_never 2 3) m1 = Ok m2 /\
  accepted (g_never 2 3) m2 = 50%R.
Proof. exact half_accepted. Qed.

(** The speed shown is that of checkinterval - 1 steps, of checkinterval made. *)
Theorem C88_speed_refuted : forall tr acor g fmt inits prev r h m d i m3 l, length inits = g_ensembles g -> (2 <= g_check g)%nat -> (0 < nw_of g)%nat -> (0 < g_ensembles g)%nat -> (0 < i)%R ->
  after tr acor g (start g inits prev) r h m -> round_shown tr acor g fmt d i m = Ok (m3, l) ->
  (forall s, In s (m_samplers m) -> sp_calls s = (r * g_check g)%nat) /\ (forall s, In s (m_samplers m3) -> sp_calls s = (S r * g_check g)%nat) /\
  exists rt, rate g i = Ok rt /\ (rt = INR (g_check g - 1) * INR (nw_of g * g_ensembles g) / i)%R /\ (rt < INR (g_check g) * INR (nw_of g * g_ensembles g) / i)%R.
Proof. exact speed. Qed.
Print Assumptions C88_speed_refuted.

(** the end of burn-in is announced once, if it came *)
Theorem C88_discard : forall tr acor g fmt d clock n r m m' l, rounds_shown tr acor g fmt d clock n r m = Ok (m', l) ->
  discards l = (if m_burned m' && negb (m_burned m) then [Printed discarding] else []) /\ (m_burned m = true -> m_burned m' = true).
Proof. exact discard_once. Qed.
Print Assumptions C88_discard.

(** the last message: h lists the outcomes of the computed tests, newest first *)
Theorem C88_verdict : forall tr acor g fmt inits prev n m tdiff, rounds tr acor g n (start g inits prev) = Ok m ->
  exists r h, after tr acor g (start g inits prev) r h m /\
    ((closing fmt tdiff m = [well_mixed fmt tdiff m; nl] /\ exists h', h = true :: true :: h') \/
     (closing fmt tdiff m = [nl; marginal] /\ exists h', h = true :: false :: h') \/
     (closing fmt tdiff m = [nl; not_mixed] /\ (h = [] \/ (exists h', h = false :: h') \/ ((exists h', h = true :: false :: h') /\ untested tr acor g (start g inits prev) r h)))).
Proof. exact verdict. Qed.
Print Assumptions C88_verdict.
