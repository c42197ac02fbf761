(** Statements about the plots of a sampling run (C79) and examples. *)
From Coq Require Import Reals String Arith ZArith Bool Lra Lia Sorted Permutation List.
From Verif Require Import Py PyFacts PyFloat Params Kepler Stats StatsProofs Timebin BintelsProofs TexLabels PostProc ParTable ParTableSpec DerivTab DerivTabSpec DerivTabProofs DerivTabThms Mcmc McmcSpec McmcProofs McmcThms McmcRows McmcSave McmcSaveThms Panels PanelSpec PanelMade ChainPlot ChainPlotSpec ChainPlotThms.
Import ListNotations.
Open Scope R_scope.

Lemma trend_thm tr acor g inits m df pp letters keys vary names chains pages :
  (forall e c p, shaped g (fst (tr e c p))) -> (2 <= g_check g)%nat -> (1 <= g_ensembles g)%nat -> (1 <= g_thin g)%nat -> (1 <= nw_of g)%nat ->
  length inits = g_ensembles g -> mcmc tr acor g inits None = Ok (m, df) ->
  holds names df chains -> trend_plot pp letters keys vary chains (nw_of g) (g_ensembles g) = Ok pages ->
  StronglySorted slt (map pg_param pages) /\ (forall k, In k (map pg_param pages) <-> In k keys /\ vary k = true) /\
  exists chs, m_chains m = Some chs /\ forall p, In p pages ->
    (exists d, tex_labels pp letters keys = Ok d /\ pg_label p = match dget d (pg_param p) with Some t => t | None => pg_param p end) /\
    forall j, nth_error names j = Some (pg_param p) -> page_shows (nw_of g) (g_thin g) chs j (fun o => (o < g_thin g)%nat) p /\
      (Nat.divide (g_thin g) (g_check g) -> page_shows (nw_of g) (g_thin g) chs j (fun o => o = 0%nat) p).
Proof.
  intros H1 H2 H3 H4 H5 H6 H7 HH HP. destruct (trend_shape _ _ _ _ _ _ _ _ HP) as [S1 S2].
  split; [rewrite S1; apply np_unique_sorted|]. split; [intro k; now rewrite S1, np_unique_in, filter_In|].
  destruct (run_table tr acor g inits m df H1 H2 H3 H4 H6 H7) as (chs & r & E1 & E2 & Hr & E3 & _). exists chs. split; [exact E1|].
  intros p Hp. destruct (S2 p Hp) as [P1 P2]. split; [exact P2|]. intros j Hj.
  destruct (trend_page_shows tr acor g inits m df H1 H2 H3 H4 H5 H6 H7 chs j chains p names E1 HH Hj P1) as [Q1 Q2]. split; [exact Q1|].
  intros [k Dk]. apply Q2. exists (r * g_check g)%nat. split; [exact E3|]. exists (r * k)%nat. rewrite Dk. lia.
Qed.

Lemma trend_drawn tr acor g inits m df pp letters keys vary names chains d k0 :
  (forall e c p, shaped g (fst (tr e c p))) -> (2 <= g_check g)%nat -> (1 <= g_ensembles g)%nat -> (1 <= g_thin g)%nat -> (1 <= nw_of g)%nat ->
  length inits = g_ensembles g -> mcmc tr acor g inits None = Ok (m, df) ->
  holds names df chains -> tex_labels pp letters keys = Ok d -> (forall k, In k keys -> vary k = true -> In k names) -> In k0 keys -> vary k0 = true ->
  forall chs c, m_chains m = Some chs -> In c chs ->
  (exists pages, trend_plot pp letters keys vary chains (nw_of g) (g_ensembles g) = Ok pages) <->
  exists x, Nat.divide (g_thin g) (length c + x) /\ (nw_of g * g_ensembles g * x < g_thin g)%nat.
Proof.
  intros H1 H2 H3 H4 H5 H6 H7 HH HT HV K1 K2 chs c EC Hc.
  destruct (run_table tr acor g inits m df H1 H2 H3 H4 H6 H7) as (chs' & r & E1 & E2 & Hr & E3 & E4 & E5). rewrite EC in E1. injection E1 as <-.
  set (L := (r * g_check g)%nat) in *. assert (1 <= L)%nat as HL by (unfold L; nia). rewrite (E3 c Hc).
  assert (chs <> []) as NE by (intros ->; easy). destruct (df_at g chs L NE E3 E4) as [D1 _]. rewrite E2 in D1.
  assert (forall i, (i < length df)%nat <-> (i * g_thin g < nw_of g * g_ensembles g * L)%nat) as K.
  { intro i. rewrite <- D1, <- !nth_error_Some, E5. reflexivity. }
  destruct (thin_count (nw_of g * g_ensembles g) L (g_thin g) (length df)) as [T1 T2]; [nia|exact HL|exact H4|exact K|]. split.
  - intros [pages HP]. destruct (trend_shape _ _ _ _ _ _ _ _ HP) as [S1 S2].
    assert (In k0 (map pg_param pages)) as I by (rewrite S1, np_unique_in, filter_In; auto). apply in_map_iff in I as (p & Ep & Ip). destruct (S2 p Ip) as [P _].
    apply page_inv in P as (flat & q & F1 & _ & F2 & _). rewrite Ep in F1. destruct (In_nth_error _ _ (HV k0 K1 K2)) as [j Hj]. rewrite (HH j _ Hj) in F1. injection F1 as <-.
    rewrite map_length in F2. destruct (T1 q F2) as [Q1 Q2]. exists (q * g_thin g - L)%nat. split; [|exact Q2]. exists q. lia.
  - intros (x & [q Dx] & Lx). assert (length df = (nw_of g * g_ensembles g * q)%nat) as F by (apply (T2 x q); lia).
    unfold trend_plot. destruct (labels_ok pp letters keys d (np_unique (filter vary keys)) HT) as (texs & EL & LL). rewrite EL. cbn [bind].
    apply map_res_all. intros [k t] Hk. apply in_combine_l in Hk. apply np_unique_in, filter_In in Hk as [I1 I2]. destruct (In_nth_error _ _ (HV k I1 I2)) as [j Hj].
    apply (page_ok chains (nw_of g) (g_ensembles g) k t (map (cell j) df) q); [apply (HH j k Hj)|nia|now rewrite map_length].
Qed.

(** ** corner plots *)
Lemma corner_thm pp letters keys vary chains cs : corner_plot pp letters keys vary chains = Ok cs ->
  length cs = length (filter vary keys) /\ forall i k, nth_error (filter vary keys) i = Some k ->
    exists d col, tex_labels pp letters keys = Ok d /\ dget chains k = Some col /\ nth_error cs i = Some (match dget d k with Some t => t | None => k end, col).
Proof.
  unfold corner_plot. destruct (labels_of _ _ _ _) as [texs|] eqn:EL; [|discriminate]. cbn [bind]. destruct (map_res (column chains) _) as [cols|] eqn:EM; [|discriminate]. cbn [bind].
  intro H. injection H as <-. destruct (labels_inv _ _ _ _ _ EL) as [LL LN]. apply map_res_inv in EM as [ML MN].
  split; [rewrite combine_length; lia|]. intros i k Hk. destruct (LN i k Hk) as (d & D1 & D2).
  destruct (nth_error cols i) as [col|] eqn:Ec; [|apply nth_error_None in Ec; assert (i < length (filter vary keys))%nat by (apply nth_error_Some; congruence); lia].
  destruct (MN i col Ec) as (k' & Hk' & C). rewrite Hk in Hk'. injection Hk' as <-. unfold column in C. destruct (dget chains k) as [col'|]; [|discriminate]. injection C as ->.
  exists d, col. split; [exact D1|]. split; [reflexivity|]. apply nth_combine. auto.
Qed.
Lemma derived_thm n letters nulls chains dp cs : derived_plot n letters nulls chains = Ok dp -> derived_corner dp = Ok cs ->
  length cs = length (filter (usable chains nulls) (numbered ["mpsini"; "rhop"; "a"] n)) /\
  forall p i col, In p ["mpsini"; "rhop"; "a"]%string -> (1 <= i <= n)%nat -> dget chains (key p i) = Some col -> ~ In (key p i) nulls ->
    exists l u col', dletter letters i l /\ shown_as p col col' u /\ In ((dtex p l ++ " [" ++ u ++ "]")%string, col') cs.
Proof.
  intros HD HC. unfold derived_corner in HC. destruct (map_res _ _) as [cols|] eqn:EM; [|discriminate]. cbn [bind] in HC. injection HC as <-. apply map_res_inv in EM as [ML MN]. split.
  - change ["mpsini"; "rhop"; "a"]%string with DERIVED. rewrite <- (plot_labels n letters nulls chains dp HD), combine_length, !map_length. lia.
  - intros p i col Hp Hi Hc Hn. destruct (plot_entry n letters nulls chains dp HD p i col Hp Hi Hc Hn) as (l & u & col' & L & G & SH & I).
    exists l, u, col'. split; [exact L|]. split; [exact SH|]. apply In_nth_error in I as [x Hx].
    destruct (nth_error cols x) as [c|] eqn:Ec; [|apply nth_error_None in Ec; assert (x < length (snd dp))%nat by (apply nth_error_Some; congruence); lia].
    destruct (MN x c Ec) as (e & He & C). rewrite Hx in He. injection He as <-. unfold column in C. cbn [d_label] in C. rewrite G in C. injection C as ->.
    apply nth_error_In with x. apply nth_combine. cbn [fst snd]. split; [|exact Ec]. rewrite nth_error_map, Hx. reflexivity.
Qed.

(** ** autocorrelation times *)
Definition frame (m m' : mstate) : Prop := m_autosamples m' = m_autosamples m /\ m_automin m' = m_automin m /\ m_automean m' = m_automean m /\ m_automax m' = m_automax m.
Lemma sample_autos tr g m m' : sample_round tr g m = Ok m' -> frame m m'.
Proof. unfold sample_round. intro H. binds H. destruct a as [inp st]. injection H as <-. repeat split; reflexivity. Qed.
Lemma burn_autos g m m' : burn_step g m = Ok m' -> frame m m'.
Proof. unfold burn_step. intro H. destruct (_ && _); [|injection H as <-; repeat split; reflexivity]. binds H. injection H as <-. repeat split; reflexivity. Qed.
Lemma fold_fin (f : ext -> ext -> ext) (h : R -> R -> R) : (forall a b, f (Fin a) (Fin b) = Fin (h a b)) -> forall l x, fold_left f (map Fin l) (Fin x) = Fin (fold_left h l x).
Proof. intros H l. induction l as [|y l IH]; intro x; cbn [map fold_left]; [reflexivity|]. now rewrite H, IH. Qed.
Lemma no_nan l : existsb is_nan (map Fin l) = false.
Proof. induction l; cbn; auto. Qed.
Lemma np_min_fin ts e : np_min (map Fin ts) = Ok e -> exists lo, e = Fin lo /\ least ts lo.
Proof.
  unfold np_min. rewrite no_nan. destruct ts as [|x ts]; [discriminate|]. cbn [map py_min]. intro H. injection H as <-.
  rewrite (fold_fin _ (fun a b => if rltb b a then b else a)). 2:{ intros a b. cbn [ext_ltb]. now destruct (rltb b a). }
  eexists. split; [reflexivity|]. revert x. induction ts as [|y ts IH]; intro x; cbn [fold_left]; [split; [now left|intros z [<-|[]]; lra]|].
  destruct (IH (if rltb y x then y else x)) as [I B]. set (v := fold_left _ _ _) in *. assert (v <= (if rltb y x then y else x)) as V by (apply B; now left).
  split.
  - destruct I as [<-|I]; [destruct (rltb y x); [right; now left|now left]|right; now right].
  - destruct (rltb y x) eqn:E; [apply rltb_true in E|apply rltb_false in E]; intros z [<-|[<-|Hz]]; try lra; apply B; now right.
Qed.
Lemma np_max_fin ts e : np_max (map Fin ts) = Ok e -> exists hi, e = Fin hi /\ greatest ts hi.
Proof.
  unfold np_max. rewrite no_nan. destruct ts as [|x ts]; [discriminate|]. cbn [map py_max]. intro H. injection H as <-.
  rewrite (fold_fin _ (fun a b => if rltb a b then b else a)). 2:{ intros a b. cbn [ext_ltb]. now destruct (rltb a b). }
  eexists. split; [reflexivity|]. revert x. induction ts as [|y ts IH]; intro x; cbn [fold_left]; [split; [now left|intros z [<-|[]]; lra]|].
  destruct (IH (if rltb x y then y else x)) as [I B]. set (v := fold_left _ _ _) in *. assert ((if rltb x y then y else x) <= v) as V by (apply B; now left).
  split.
  - destruct I as [<-|I]; [destruct (rltb x y); [right; now left|now left]|right; now right].
  - destruct (rltb x y) eqn:E; [apply rltb_true in E|apply rltb_false in E]; intros z [<-|[<-|Hz]]; try lra; apply B; now right.
Qed.
Lemma ext_sum_fin ts : ext_sum (map Fin ts) = Fin (rsum ts).
Proof.
  unfold ext_sum. enough (forall x, fold_left ext_add (map Fin ts) (Fin x) = Fin (x + rsum ts)) as E by (rewrite E; f_equal; lra).
  induction ts as [|y ts IH]; intro x; cbn [map fold_left]; [cbn; f_equal; lra|]. cbn [ext_add]. rewrite IH. f_equal. unfold rsum. cbn [fold_right]. lra.
Qed.
Lemma same_length_concat {A} (chs : list (list A)) : same_length chs = true -> (length chs * match chs with c :: _ => length c | [] => 0 end)%nat = length (concat chs).
Proof.
  destruct chs as [|c r]; [reflexivity|]. cbn [same_length]. intro H. rewrite forallb_forall in H. destruct (concat_same (c :: r) (length c)) as [E _]; [|now rewrite E].
  intros x [<-|Hx]; [reflexivity|]. now apply Nat.eqb_eq, H.
Qed.

Section Auto.
Variables (tr : nat -> nat -> ens -> sample * list nat) (acor : list (list sample) -> list ext) (g : mcfg) (A : R).
Hypothesis Hac : forall chs, exists ts, acor chs = map Fin ts /\ Forall (Rlt 0) ts.
Hypothesis HA : th_minA (g_th g) = Fin A.
Hypothesis PA : 0 < A.

(** a test of which the numbers are written down *)
Definition tested (n : nat) (mn av mx : ext) : Prop := exists chs old s ts lo a hi, convergence_calculate acor (g_th g) (nw_of g) (g_ndim g) chs old = Ok s /\
  check_of acor chs ts (INR n) lo a hi /\ mn = Fin lo /\ av = Fin a /\ mx = Fin hi /\ (st_mixed s = true -> forall x, In x ts -> A * x < INR n).
Definition ainv (m : mstate) : Prop := length (m_automin m) = length (m_autosamples m) /\ length (m_automean m) = length (m_autosamples m) /\ length (m_automax m) = length (m_autosamples m) /\
  forall i n mn av mx, nth_error (m_autosamples m) i = Some n -> nth_error (m_automin m) i = Some mn -> nth_error (m_automean m) i = Some av -> nth_error (m_automax m) i = Some mx -> tested n mn av mx.
Lemma ainv_frame m m' : frame m m' -> ainv m -> ainv m'.
Proof. intros (E1 & E2 & E3 & E4). unfold ainv. now rewrite E1, E2, E3, E4. Qed.

Lemma calc_tested chs old s mn mx : convergence_calculate acor (g_th g) (nw_of g) (g_ndim g) chs old = Ok s -> np_min (st_acor s) = Ok mn -> np_max (st_acor s) = Ok mx ->
  tested (length chs * match chs with c :: _ => length c | [] => 0 end)%nat mn (ext_mean (st_acor s)) mx.
Proof.
  intros HC Hmn Hmx. pose proof HC as HC'. unfold convergence_calculate in HC. destruct (same_length chs) eqn:SL; [|discriminate]. cbn [negb] in HC.
  destruct (Nat.leb _ 1); [discriminate|]. match type of HC with (let '(_, _) := ?z in _) = _ => destruct z as [tz mT] end.
  binds HC. injection HC as HC. assert (st_acor s = acor chs) as EA by (rewrite <- HC; reflexivity). destruct (Hac chs) as (ts & Ets & Pts). rewrite EA, Ets in *.
  destruct (np_min_fin ts mn Hmn) as (lo & -> & Blo). destruct (np_max_fin ts mx Hmx) as (hi & -> & Bhi).
  assert (ts <> []) as Nts by (intros ->; destruct Blo as [[] _]). assert (INR (length ts) <> 0) as NL by (destruct ts; [easy|apply not_0_INR; discriminate]).
  rewrite (same_length_concat chs SL). exists chs, old, s, ts, lo, (rsum ts / INR (length ts)), hi. split; [exact HC'|]. split.
  - split; [exact Ets|]. split; [exact Nts|]. split; [reflexivity|]. split; [exact Blo|]. split; [exact Bhi|]. field. exact NL.
  - split; [reflexivity|]. split; [|split; [reflexivity|]].
    + unfold ext_mean. rewrite ext_sum_fin, map_length. unfold ext_div. now rewrite (proj2 (reqb_false _ _) NL).
    + intros Mx x Hx. rewrite <- HC in Mx. cbn [st_mixed] in Mx. rewrite !andb_true_iff in Mx. destruct Mx as [[_ Mx] _]. rewrite HA in Mx.
      rewrite Forall_forall in Pts. assert (map (fun a => ext_div (Fin (INR (length (concat chs)))) a) (map Fin ts) = map Fin (map (fun t => INR (length (concat chs)) / t) ts)) as EM.
      { rewrite !map_map. apply map_ext_in. intros t Ht. unfold ext_div. assert (t <> 0) as Nt by (specialize (Pts t Ht); lra). now rewrite (proj2 (reqb_false _ _) Nt). }
      rewrite EM in *. match goal with H : np_min (map Fin (map _ ts)) = Ok ?v |- _ => destruct (np_min_fin _ _ H) as (v0 & -> & [_ Bv]) end.
      cbn [ext_gtb ext_ltb] in Mx. unfold ext_gtb in Mx. cbn [ext_ltb] in Mx. apply rltb_true in Mx. specialize (Bv (INR (length (concat chs)) / x) (in_map _ _ _ Hx)). specialize (Pts x Hx).
      assert (A < INR (length (concat chs)) / x) as Q by lra. apply (Rmult_lt_compat_r x) in Q; [|exact Pts]. unfold Rdiv in Q. rewrite Rmult_assoc, Rinv_l in Q by lra. lra.
Qed.

Lemma snoc_nth {B} (l : list B) x i y : nth_error (l ++ [x]) i = Some y -> (i < length l)%nat /\ nth_error l i = Some y \/ i = length l /\ y = x.
Proof.
  intro H. destruct (Nat.lt_ge_cases i (length l)) as [L|L]; [left; now rewrite nth_error_app1 in H by exact L|]. right. rewrite nth_error_app2 in H by exact L.
  destruct (i - length l)%nat as [|k] eqn:E; [|destruct k; discriminate]. injection H as ->. split; [lia|reflexivity].
Qed.
Lemma check_autos m m' : convergence_check acor g m = Ok m' -> ainv m -> ainv m'.
Proof.
  unfold convergence_check. destruct (Nat.eqb (g_ensembles g) 0); [discriminate|]. cbv zeta. destruct (_ && _).
  - intro H. injection H as <-. apply ainv_frame. repeat split; reflexivity.
  - set (chs := map sp_chain (m_samplers m)). intros H I. destruct (convergence_calculate acor (g_th g) (nw_of g) (g_ndim g) chs (m_oac m)) as [s|] eqn:HC; [|discriminate]. cbn [bind] in H.
    destruct (py_min (st_tz s)); [|discriminate]. cbn [bind] in H. destruct (py_max (st_gr s)); [|discriminate]. cbn [bind] in H. destruct (np_min (st_afactor s)); [|discriminate]. cbn [bind] in H.
    destruct (np_max (st_archange s)); [|discriminate]. cbn [bind] in H. destruct (np_min (st_acor s)) as [mn|] eqn:Hmn; [|discriminate]. cbn [bind] in H. destruct (np_max (st_acor s)) as [mx|] eqn:Hmx; [|discriminate].
    cbn [bind] in H. injection H as <-. pose proof (calc_tested chs _ s mn mx HC Hmn Hmx) as T. destruct I as (L1 & L2 & L3 & I). destruct (m_burned m); [|apply (ainv_frame m); [repeat split; reflexivity|now repeat split]].
    unfold ainv. cbn [m_automin m_autosamples m_automean m_automax]. rewrite !app_length, L1, L2, L3. split; [reflexivity|]. split; [reflexivity|]. split; [reflexivity|].
    intros i n x1 x2 x3 H0 H1 H2 H3. apply snoc_nth in H0 as [[K0 H0]|[K0 H0]], H1 as [[K1 H1]|[K1 H1]], H2 as [[K2 H2]|[K2 H2]], H3 as [[K3 H3]|[K3 H3]]; try lia; [exact (I i n x1 x2 x3 H0 H1 H2 H3)|].
    subst n x1 x2 x3. exact T.
Qed.
Lemma run_autos inits prev r h m : after tr acor g (start g inits prev) r h m -> ainv m.
Proof.
  intro H. assert (forall m m2, one_round tr acor g m = Ok m2 -> ainv m -> ainv m2) as K.
  { intros x x2 Ho Hx. destruct (one_round_split _ _ _ _ _ Ho) as (n1 & n2 & B1 & B2 & B3). apply (ainv_frame n2); [exact (burn_autos _ _ _ B3)|].
    apply (check_autos n1); [exact B2|]. apply (ainv_frame x); [exact (sample_autos _ _ _ _ B1)|exact Hx]. }
  induction H; [|eapply K; eauto|eapply K; eauto]. split; [reflexivity|]. split; [reflexivity|]. split; [reflexivity|]. intros [|i]; discriminate.
Qed.

Lemma auto_thm inits m df t f : mcmc tr acor g inits None = Ok (m, df) -> table_of m A t -> auto_plot t = Ok f ->
  length (af_min f) = length (m_autosamples m) /\ length (af_mean f) = length (m_autosamples m) /\ length (af_max f) = length (m_autosamples m) /\
  forall i, (i < length (m_autosamples m))%nat -> exists chs old s ts n lo av hi, convergence_calculate acor (g_th g) (nw_of g) (g_ndim g) chs old = Ok s /\ check_of acor chs ts n lo av hi /\
    nth_error (af_min f) i = Some (n, lo) /\ nth_error (af_mean f) i = Some (n, av) /\ nth_error (af_max f) i = Some (n, hi) /\
    (below (af_line f) (n, hi) <-> forall x, In x ts -> A * x < n) /\ (st_mixed s = true -> below (af_line f) (n, hi)).
Proof.
  intros HM (T1 & T2 & T3 & T4 & T5) HF. unfold mcmc in HM. apply bind_ok in HM as [n0 [_ HM]]. apply bind_ok in HM as [m' [Hr HM]].
  destruct (m_chains m') as [chains|]; [|discriminate]. apply bind_ok in HM as [df' [_ HM]]. injection HM as -> _.
  destruct (run_after tr acor g inits None _ _ Hr) as (r & h & Ha & _). apply run_autos in Ha as (L1 & L2 & L3 & I).
  unfold auto_plot in HF. destruct (a_factor t) as [|f0 fs] eqn:EF; [discriminate|]. injection HF as <-. cbn [af_min af_mean af_max af_line].
  assert (f0 = A) as -> by (destruct (m_autosamples m); [discriminate|]; now injection T5). rewrite T2, map_length in L1. rewrite T3, map_length in L2. rewrite T4, map_length in L3.
  split; [rewrite combine_length, T1, map_length; lia|]. split; [rewrite combine_length, T1, map_length; lia|]. split; [rewrite combine_length, T1, map_length; lia|].
  intros i Hi. destruct (nth_error (m_autosamples m) i) as [n|] eqn:En; [|apply nth_error_None in En; lia]. destruct (nth_error (a_min t) i) as [mn|] eqn:E1; [|apply nth_error_None in E1; lia].
  destruct (nth_error (a_mean t) i) as [av|] eqn:E2; [|apply nth_error_None in E2; lia]. destruct (nth_error (a_max t) i) as [mx|] eqn:E3; [|apply nth_error_None in E3; lia].
  destruct (I i n (Fin mn) (Fin av) (Fin mx) En) as (chs & old & s & ts & lo & a & hi & C1 & C2 & Q1 & Q2 & Q3 & C3).
  { rewrite T2, nth_error_map, E1. reflexivity. } { rewrite T3, nth_error_map, E2. reflexivity. } { rewrite T4, nth_error_map, E3. reflexivity. }
  injection Q1 as ->. injection Q2 as ->. injection Q3 as ->. exists chs, old, s, ts, (INR n), lo, a, hi. split; [exact C1|]. split; [exact C2|].
  assert (nth_error (a_n t) i = Some (INR n)) as E0 by (rewrite T1, nth_error_map, En; reflexivity).
  split; [apply nth_combine; auto|]. split; [apply nth_combine; auto|]. split; [apply nth_combine; auto|].
  assert (below (map (fun x => (x, x / A)) (a_n t)) (INR n, hi) <-> hi < INR n / A) as BE.
  { unfold below. cbn [fst snd]. split.
    - intros (y & Hy & L). apply in_map_iff in Hy as (z & Ez & _). injection Ez as -> <-. exact L.
    - intro L. exists (INR n / A). split; [apply in_map_iff; exists (INR n); split; [reflexivity|eapply nth_error_In; exact E0]|exact L]. }
  assert (hi < INR n / A <-> forall x, In x ts -> A * x < INR n) as BT.
  { destruct C2 as (_ & _ & _ & _ & [Ih Bh] & _). split.
    - intros L x Hx. specialize (Bh x Hx). apply (Rmult_lt_compat_l A) in L; [|exact PA]. replace (A * (INR n / A)) with (INR n) in L by (field; lra). nra.
    - intro L. specialize (L hi Ih). apply (Rmult_lt_reg_l A); [exact PA|]. replace (A * (INR n / A)) with (INR n) by (field; lra). exact L. }
  rewrite BE, BT. split; [reflexivity|exact C3].
Qed.

Lemma mean_between ts lo hi av : ts <> [] -> least ts lo -> greatest ts hi -> av * INR (length ts) = rsum ts -> lo <= av <= hi.
Proof.
  intros N [_ BL] [_ BH] E. assert (lo * INR (length ts) <= rsum ts <= hi * INR (length ts)) as B.
  { clear - BL BH. induction ts as [|x ts IH]; [cbn; lra|]. unfold rsum in *. cbn [fold_right]. cbn [length]. rewrite S_INR. assert (lo <= x <= hi) by (split; [apply BL|apply BH]; now left).
    destruct IH; [intros; apply BL; now right|intros; apply BH; now right|]. lra. }
  assert (0 < INR (length ts)) as P by (apply lt_0_INR; destruct ts; [easy|cbn; lia]). rewrite <- E in B. split; apply (Rmult_le_reg_r (INR (length ts))); lra.
Qed.

Lemma auto_window inits m df t f : mcmc tr acor g inits None = Ok (m, df) -> table_of m A t -> auto_plot t = Ok f ->
  forall p, In p (af_min f) \/ In p (af_mean f) \/ In p (af_max f) ->
    (forall a b, af_xlim f = Some (a, b) -> a <= fst p <= b) /\ fst (af_ylim f) <= snd p <= snd (af_ylim f).
Proof.
  intros HM HT HF p Hp. destruct (auto_thm inits m df t f HM HT HF) as (L1 & L2 & L3 & I). destruct HT as (T1 & _).
  assert (exists i lo av hi n, nth_error (af_min f) i = Some (n, lo) /\ nth_error (af_mean f) i = Some (n, av) /\ nth_error (af_max f) i = Some (n, hi) /\ lo <= av <= hi /\ lo <= hi /\ fst p = n /\ lo <= snd p <= hi) as (i & lo & av & hi & n & A1 & A2 & A3 & A4 & A5 & A6 & A7).
  { assert (exists i, (i < length (m_autosamples m))%nat /\ (nth_error (af_min f) i = Some p \/ nth_error (af_mean f) i = Some p \/ nth_error (af_max f) i = Some p)) as (i & Li & Hi).
    { destruct Hp as [Hp|[Hp|Hp]]; apply In_nth_error in Hp as [i Hi]; exists i; (split; [|tauto]); assert (nth_error _ i <> None) as Q by (rewrite Hi; discriminate); apply nth_error_Some in Q; lia. }
    destruct (I i Li) as (chs & old & s & ts & n & lo & av & hi & _ & (_ & C1 & _ & C2 & C3 & C4) & A1 & A2 & A3 & _). exists i, lo, av, hi, n.
    pose proof (mean_between ts lo hi av C1 C2 C3 C4) as MB. split; [exact A1|]. split; [exact A2|]. split; [exact A3|]. split; [exact MB|]. split; [lra|].
    rewrite A1, A2, A3 in Hi. destruct Hi as [Hi|[Hi|Hi]]; injection Hi as <-; cbn; split; auto; lra. }
  unfold auto_plot in HF. destruct (a_factor t) as [|f0 fs] eqn:EF; [discriminate|]. injection HF as <-. cbn [af_min af_mean af_max af_xlim af_ylim] in *.
  apply nth_combine in A1 as [B1 B2], A2 as [_ B3], A3 as [_ B4]. cbn [fst snd] in *. apply nth_error_In in B1, B2, B3, B4.
  assert (forall l x, In x l -> vmin l <= x <= vmax l) as EX. { intros l x Hx. destruct (extremes l) as [[_ Q1] [_ Q2]]; [intros ->; easy|]. split; auto. }
  pose proof (EX _ _ B1). pose proof (EX _ _ B2). pose proof (EX _ _ B4). split.
  - intros a b. destruct (reqb _ _); [discriminate|]. intro Q. injection Q as <- <-. now rewrite A6.
  - destruct (rltb _ _) eqn:Er; [apply rltb_true in Er|]; cbn; lra.
Qed.
End Auto.
