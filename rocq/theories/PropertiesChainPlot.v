(** Property theorems C79: the plots of a sampling run. *)
From Coq Require Import Reals String Arith Bool Lra Lia Sorted List.
From Verif Require Import Py PyFloat Params BintelsProofs TexLabels PostProc ParTable ParTableSpec DerivTab DerivTabSpec DerivTabThms Mcmc McmcThms McmcRows McmcSaveThms PanelSpec ChainPlot ChainPlotSpec ChainPlotThms ChainPlotMade ChainPlotEx.
Import ListNotations.
Open Scope R_scope.

(** * C79 *)
(** A trend plot has one page for each free parameter, in the order of names, with its label.  The page of a parameter
    has one line for each walker of each ensemble, in the walker's colour: every thin-th step of that walker in that
    ensemble.  If thin divides the interval of the checks, lines begin with the first step.  The table may have further
    columns. *)
Theorem C79_trend_partial : forall tr acor g inits m df pp letters keys vary names chains pages,
  (forall e c p, shaped g (fst (tr e c p))) -> (2 <= g_check g)%nat -> (1 <= g_ensembles g)%nat -> (1 <= g_thin g)%nat -> (1 <= nw_of g)%nat ->
  length inits = g_ensembles g -> mcmc tr acor g inits None = Ok (m, df) ->
  holds names df chains -> trend_plot pp letters keys vary chains (nw_of g) (g_ensembles g) = Ok pages ->
  StronglySorted slt (map pg_param pages) /\ (forall k, In k (map pg_param pages) <-> In k keys /\ vary k = true) /\
  exists chs, m_chains m = Some chs /\ forall p, In p pages ->
    (exists d, tex_labels pp letters keys = Ok d /\ pg_label p = match dget d (pg_param p) with Some t => t | None => pg_param p end) /\
    forall j, nth_error names j = Some (pg_param p) -> page_shows (nw_of g) (g_thin g) chs j (fun o => (o < g_thin g)%nat) p /\
      (Nat.divide (g_thin g) (g_check g) -> page_shows (nw_of g) (g_thin g) chs j (fun o => o = 0%nat) p).
Proof. exact trend_thm. Qed.
Print Assumptions C79_trend_partial.

Example C79_trend_partial_ex : (forall e c p, shaped (g3 1) (fst (tr2 e c p))) /\ exists m df chains pages, mcmc tr2 acor1 (g3 1) [[[0]; [0]]] None = Ok (m, df) /\ holds ["k1"%string] df chains /\
  trend_plot ["k"%string] None ["k1"%string] (fun _ => true) chains (nw_of (g3 1)) (g_ensembles (g3 1)) = Ok pages.
Proof. split; [apply shaped2|exact trend_ex]. Qed.

(** Full claim: the trend plot of every run is drawn.  It is drawn exactly if a whole number of kept samples falls on every
    walker of every ensemble: if some number x with walkers * ensembles * x < thin makes length + x a multiple of thin. *)
Theorem C79_trend_drawn_partial : forall tr acor g inits m df pp letters keys vary names chains d k0,
  (forall e c p, shaped g (fst (tr e c p))) -> (2 <= g_check g)%nat -> (1 <= g_ensembles g)%nat -> (1 <= g_thin g)%nat -> (1 <= nw_of g)%nat ->
  length inits = g_ensembles g -> mcmc tr acor g inits None = Ok (m, df) ->
  holds names df chains -> tex_labels pp letters keys = Ok d -> (forall k, In k keys -> vary k = true -> In k names) -> In k0 keys -> vary k0 = true ->
  forall chs c, m_chains m = Some chs -> In c chs ->
  (exists pages, trend_plot pp letters keys vary chains (nw_of g) (g_ensembles g) = Ok pages) <->
  exists x, Nat.divide (g_thin g) (length c + x) /\ (nw_of g * g_ensembles g * x < g_thin g)%nat.
Proof. exact trend_drawn. Qed.
Print Assumptions C79_trend_drawn_partial.

Example C79_trend_drawn_partial_ex : (exists df, mcmc tr2 acor1 (g3 1) [[[0]; [0]]] None = Ok (M3, df) /\ holds ["k1"%string] df [("k1"%string, map (cell 0) df)]) /\ m_chains M3 = Some [c3] /\
  (exists d, tex_labels ["k"%string] None ["k1"%string] = Ok d) /\ Nat.divide 1 (length c3 + 0) /\ (2 * 1 * 0 < 1)%nat.
Proof. split; [destruct (run3 1 (le_n 1)) as [df H]; exists df; split; [exact H|apply holds1]|]. split; [reflexivity|]. split; [exact tex1|]. split; [exists 3%nat; reflexivity|lia]. Qed.

(** A run with three steps between checks of which every second is kept cannot be drawn. *)
Theorem C79_trend_refuted : exists tr acor g inits m df names chains, (forall e c p, shaped g (fst (tr e c p))) /\ (1 <= g_thin g <= g_check g)%nat /\
  mcmc tr acor g inits None = Ok (m, df) /\ holds names df chains /\ names = ["k1"%string] /\
  trend_plot ["k"%string] None names (fun _ => true) chains (nw_of g) (g_ensembles g) = Err ValueError.
Proof. exact trend_raises. Qed.
Print Assumptions C79_trend_refuted.

(** A corner plot has the columns of the free parameters, in the order of the parameters, each with its label. *)
Theorem C79_corner : forall pp letters keys vary chains cs, corner_plot pp letters keys vary chains = Ok cs ->
  length cs = length (filter vary keys) /\ forall i k, nth_error (filter vary keys) i = Some k ->
    exists d col, tex_labels pp letters keys = Ok d /\ dget chains k = Some col /\ nth_error cs i = Some (match dget d k with Some t => t | None => k end, col).
Proof. exact corner_thm. Qed.
Print Assumptions C79_corner.

Example C79_corner_ex : exists t1 t2, corner_plot ["per"; "k"; "e"]%string None ["per1"; "e1"; "k1"]%string (fun k => negb (String.eqb k "e1"))
  [("k1"%string, [1; 2]); ("per1"%string, [3; 4]); ("lnprobability"%string, [5; 6])] = Ok [(t1, [3; 4]); (t2, [1; 2])].
Proof. do 2 eexists. reflexivity. Qed.

(** A corner plot of derived parameters has the columns that were made and are not null, in the units written beside their labels. *)
Theorem C79_derived : forall n letters nulls chains dp cs, derived_plot n letters nulls chains = Ok dp -> derived_corner dp = Ok cs ->
  length cs = length (filter (usable chains nulls) (numbered ["mpsini"; "rhop"; "a"]%string n)) /\
  forall p i col, In p ["mpsini"; "rhop"; "a"]%string -> (1 <= i <= n)%nat -> dget chains (key p i) = Some col -> ~ In (key p i) nulls ->
    exists l u col', dletter letters i l /\ shown_as p col col' u /\ In ((dtex p l ++ " [" ++ u ++ "]")%string, col') cs.
Proof. exact derived_thm. Qed.
Print Assumptions C79_derived.

Example C79_derived_ex : exists dp cs, derived_plot 2 None ["rhop1"%string] xe_chains = Ok dp /\ derived_corner dp = Ok cs.
Proof. exact derived_ex. Qed.

(** An autocorrelation plot shows every check made after burn-in: at the number of samples of a walker in all ensembles,
    the least, mean and greatest autocorrelation time.  The greatest lies below the line exactly if the samples are more
    than the required factor times every autocorrelation time, which holds of every check that found the chains mixed. *)
Theorem C79_auto_partial : forall tr acor g A, (forall chs, exists ts, acor chs = map Fin ts /\ Forall (Rlt 0) ts) -> th_minA (g_th g) = Fin A -> 0 < A ->
  forall inits m df t f, mcmc tr acor g inits None = Ok (m, df) -> table_of m A t -> auto_plot t = Ok f ->
  length (af_min f) = length (m_autosamples m) /\ length (af_mean f) = length (m_autosamples m) /\ length (af_max f) = length (m_autosamples m) /\
  forall i, (i < length (m_autosamples m))%nat -> exists chs old s ts n lo av hi, convergence_calculate acor (g_th g) (nw_of g) (g_ndim g) chs old = Ok s /\ check_of acor chs ts n lo av hi /\
    nth_error (af_min f) i = Some (n, lo) /\ nth_error (af_mean f) i = Some (n, av) /\ nth_error (af_max f) i = Some (n, hi) /\
    (below (af_line f) (n, hi) <-> forall x, In x ts -> A * x < n) /\ (st_mixed s = true -> below (af_line f) (n, hi)).
Proof. exact auto_thm. Qed.
Print Assumptions C79_auto_partial.

Example C79_auto_partial_ex : (forall chs, exists ts, acor1 chs = map Fin ts /\ Forall (Rlt 0) ts) /\ th_minA (g_th g_two) = Fin 40 /\
  exists m df t f, mcmc tr1 acor1 g_two [p_a] None = Ok (m, df) /\ table_of m 40 t /\ auto_plot t = Ok f /\ af_max f = [(INR 2, 1)].
Proof. split; [intro; exists [1]; split; [reflexivity|repeat constructor; lra]|]. split; [reflexivity|exact auto_ex]. Qed.

(** All points of the three series lie within the limits of the axes. *)
Theorem C79_auto_window_partial : forall tr acor g A, (forall chs, exists ts, acor chs = map Fin ts /\ Forall (Rlt 0) ts) -> th_minA (g_th g) = Fin A -> 0 < A ->
  forall inits m df t f, mcmc tr acor g inits None = Ok (m, df) -> table_of m A t -> auto_plot t = Ok f ->
  forall p, In p (af_min f) \/ In p (af_mean f) \/ In p (af_max f) ->
    (forall a b, af_xlim f = Some (a, b) -> a <= fst p <= b) /\ fst (af_ylim f) <= snd p <= snd (af_ylim f).
Proof. exact auto_window. Qed.
Print Assumptions C79_auto_window_partial.

Example C79_auto_window_partial_ex : exists m df t f, mcmc tr1 acor1 g_two [p_a] None = Ok (m, df) /\ table_of m 40 t /\ auto_plot t = Ok f /\ af_max f = [(INR 2, 1)].
Proof. exact auto_ex. Qed.

(** Full claim: the autocorrelation plot of every run is drawn.  False: a run during which nothing was tested after burn-in
    has an empty table, of which the plot cannot be drawn. *)
Theorem C79_auto_refuted : exists tr acor g inits m df t, mcmc tr acor g inits None = Ok (m, df) /\ (exists A, table_of m A t) /\ auto_plot t = Err (KeyError "0").
Proof. exact auto_raises. Qed.
Print Assumptions C79_auto_refuted.
