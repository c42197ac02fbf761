(** Runs for the examples and refutations of the plots of a sampling run (C79). *)
From Coq Require Import Reals String Arith ZArith Bool Lra Lia Sorted Permutation List.
From Verif Require Import Py PyFacts PyFloat Params Kepler Stats StatsProofs Timebin BintelsProofs TexLabels PostProc ParTable ParTableSpec DerivTab DerivTabSpec DerivTabProofs DerivTabThms Mcmc McmcSpec McmcProofs McmcThms McmcRows McmcSave McmcSaveThms Panels PanelSpec PanelMade ChainPlot ChainPlotSpec ChainPlotThms ChainPlotMade.
Import ListNotations.
Open Scope R_scope.

(** one round of three steps, nothing is tested *)
Definition g3 (t : nat) : mcfg := mkCfg 2 1 2 1 3 th0 (Fin 25) (Fin (103 / 100)) 1000 1000 t.
Definition c3 : list sample := [sx (INR 0); sx (INR 1); sx (INR 2)].
Definition M3 : mstate := mkM None [] [] [] [] true [sp_n c3] [[[0]; [0]]] (Some [c3]) 6 0 false false 0 (Fin (-1)) PInf (Fin (-1)) PInf.
Lemma run3 t : (1 <= t)%nat -> exists df, mcmc tr2 acor1 (g3 t) [[[0]; [0]]] None = Ok (M3, df).
Proof.
  intro Ht. unfold mcmc. change (num_run (g3 t)) with (Ok 1%Z : res Z). cbn [bind]. change (Z.to_nat 1) with 1%nat. cbn [rounds]. unfold one_round, round_to_save.
  assert (sample_round tr2 (g3 t) (start (g3 t) [[[0]; [0]]] None) = Ok (mkM None [] [] [] [] true [sp_n c3] [[[0]; [0]]] None 0 0 false false 0 (Fin (-1)) PInf (Fin (-1)) PInf)) as -> by reflexivity.
  cbn [bind]. unfold convergence_check. change (Nat.eqb (g_ensembles (g3 t)) 0) with false. cbv iota zeta. cbn [m_samplers m_nburn map sp_n sp_chain].
  match goal with |- context [if ?b then _ else _] => assert (b = true) as -> end.
  { unfold totsteps. change (nw_of (g3 t)) with 2%nat. cbn [g3 g_nrun g_minpercent g_minsteps g_ensembles concat app c3 length rev Nat.mul Nat.add]. cbn [INR]. apply andb_true_iff. split; [apply rltb_t; lra|apply rleb_t; lra]. }
  cbn [bind m_oac m_autosamples m_automean m_automin m_automax m_started m_samplers m_inits m_chains m_nburn m_burned m_mixcount]. unfold burn_step.
  cbn [m_burned m_maxgr m_minafactor g3 g_burnGR g_burnA negb andb ext_leb]. assert (rleb 25 (-1) = false) as -> by (unfold rleb; destruct (Rle_dec 25 (-1)); [lra|reflexivity]).
  cbn [orb bind m_mixcount Nat.leb m_chains g_thin]. destruct t as [|t]; [lia|]. cbn [thinned bind]. eexists. reflexivity.
Qed.
Lemma shaped2 t : forall e c p, shaped (g3 t) (fst (tr2 e c p)).
Proof. intros. split; [reflexivity|]. split; [repeat constructor|reflexivity]. Qed.
Lemma holds1 df : holds ["k1"%string] df [("k1"%string, map (cell 0) df)].
Proof. intros [|[|j]] k E; [|discriminate|discriminate]. injection E as <-. reflexivity. Qed.
Lemma tex1 : exists d, tex_labels ["k"%string] None ["k1"%string] = Ok d.
Proof. eexists. reflexivity. Qed.

Lemma trend_ex : exists m df chains pages, mcmc tr2 acor1 (g3 1) [[[0]; [0]]] None = Ok (m, df) /\ holds ["k1"%string] df chains /\
  trend_plot ["k"%string] None ["k1"%string] (fun _ => true) chains (nw_of (g3 1)) (g_ensembles (g3 1)) = Ok pages.
Proof.
  destruct (run3 1 ltac:(lia)) as [df H]. exists M3, df, [("k1"%string, map (cell 0) df)]. destruct tex1 as [d Hd].
  assert (exists pages, trend_plot ["k"%string] None ["k1"%string] (fun _ => true) [("k1"%string, map (cell 0) df)] (nw_of (g3 1)) (g_ensembles (g3 1)) = Ok pages) as [pages HP].
  { apply (trend_drawn tr2 acor1 (g3 1) [[[0]; [0]]] M3 df _ _ _ _ ["k1"%string] _ d "k1" (shaped2 1) ltac:(cbn; lia) ltac:(cbn; lia) ltac:(cbn; lia) ltac:(cbn; lia) eq_refl H (holds1 df) Hd (fun k I _ => I) (or_introl eq_refl) eq_refl [c3] c3 eq_refl (or_introl eq_refl)).
    exists 0%nat. split; [exists 3%nat; reflexivity|cbn; lia]. }
  exists pages. split; [exact H|]. split; [apply holds1|exact HP].
Qed.
Lemma trend_raises : exists tr acor g inits m df names chains, (forall e c p, shaped g (fst (tr e c p))) /\ (1 <= g_thin g <= g_check g)%nat /\
  mcmc tr acor g inits None = Ok (m, df) /\ holds names df chains /\ names = ["k1"%string] /\
  trend_plot ["k"%string] None names (fun _ => true) chains (nw_of g) (g_ensembles g) = Err ValueError.
Proof.
  destruct (run3 2 ltac:(lia)) as [df H]. exists tr2, acor1, (g3 2), [[[0]; [0]]], M3, df, ["k1"%string], [("k1"%string, map (cell 0) df)].
  split; [apply shaped2|]. split; [cbn; lia|]. split; [exact H|]. split; [apply holds1|]. split; [reflexivity|].
  assert (length df = 3%nat) as L. { unfold mcmc in H. change (num_run (g3 2)) with (Ok 1%Z : res Z) in H. cbn [bind] in H. apply bind_ok in H as [m [_ H]]. destruct (m_chains m) as [chs|] eqn:EM; [|discriminate]. apply bind_ok in H as [df' [T H]]. injection H as -> ->.
    injection EM as <-. change (g_thin (g3 2)) with 2%nat in T. cbv [thinned] in T. injection T as <-. reflexivity. }
  unfold trend_plot. change (np_unique (filter (fun _ => true) ["k1"%string])) with ["k1"%string].
  destruct (labels_of ["k"%string] None ["k1"%string] ["k1"%string]) as [texs|] eqn:EL; [|discriminate]. cbn [bind]. destruct (labels_inv _ _ _ _ _ EL) as [LL _].
  destruct texs as [|t0 [|? ?]]; try discriminate LL. cbn [combine map_res fst snd]. unfold trend_page, column. cbn [dget]. rewrite String.eqb_refl. cbn [bind].
  unfold reshape3. rewrite map_length, L. reflexivity.
Qed.

Lemma auto_raises : exists tr acor g inits m df t, mcmc tr acor g inits None = Ok (m, df) /\ (exists A, table_of m A t) /\ auto_plot t = Err (KeyError "0").
Proof.
  destruct (run3 1 ltac:(lia)) as [df H]. exists tr2, acor1, (g3 1), [[[0]; [0]]], M3, df, (mkAuto [] [] [] [] []). split; [exact H|]. split; [|reflexivity].
  exists 40. repeat split; reflexivity.
Qed.

(** two rounds: burn-in ends with the first, the second is written down *)
Definition g_two : mcfg := mkCfg 2 1 2 1 2 th0 (Fin 1) (Fin (103 / 100)) 1000 0 1.
Lemma calc_second x : exists s gr ar, convergence_calculate acor1 th0 2 1 [[x; x]] (Some [Fin 1]) = Ok s /\
  st_tz s = [Fin (-1)] /\ st_gr s = [gr] /\ st_afactor s = [Fin (INR 2 / 1)] /\ st_archange s = [ar] /\ st_acor s = [Fin 1] /\ st_mixed s = false.
Proof.
  unfold convergence_calculate.
  cbn [same_length forallb negb length Nat.mul Nat.add Nat.leb Nat.eqb seq map concat app acor1 py_min py_max fold_left bind].
  assert (ext_div (Fin (INR 2)) (Fin 1) = Fin (INR 2 / 1)) as E1 by (unfold ext_div, reqb; destruct (Req_EM_T 1 0); [lra|reflexivity]).
  rewrite E1. assert (forall a, np_max [a] = Ok a) as NM by (intros []; reflexivity). assert (forall a, np_min [a] = Ok a) as NM' by (intros []; reflexivity).
  assert (exists ar, archange (acor1 [[x; x]]) (Some [Fin 1]) = [ar]) as [ar Ear] by (eexists; reflexivity). rewrite Ear, NM, NM'. cbn [bind]. do 3 eexists. split; [reflexivity|]. repeat split.
  cbn [st_mixed th0 th_minA]. unfold ext_gtb at 2. cbn [ext_ltb]. assert (rltb 40 (INR 2 / 1) = false) as -> by (apply rltb_f; cbn [INR]; lra). rewrite andb_false_r. reflexivity.
Qed.
Lemma auto_ex : exists m df t f, mcmc tr1 acor1 g_two [p_a] None = Ok (m, df) /\ table_of m 40 t /\ auto_plot t = Ok f /\ af_max f = [(INR 2, 1)].
Proof.
  set (x := mkS (map (map (Rplus 1)) p_a) (map (fun _ => Fin 0) p_a)). set (sp := mkSp [x; x] [] 2).
  assert (sample_round tr1 g_two (start g_two [p_a] None) = Ok (mkM None [] [] [] [] true [sp] [p_a] None 0 0 false false 0 (Fin (-1)) PInf (Fin (-1)) PInf)) as E0 by reflexivity.
  assert (forall c, rltb (INR c / totsteps g_two * 100) 0 = false) as R0.
  { intro c. apply rltb_f. unfold totsteps. cbn [g_nrun g_two g_ensembles]. change (nw_of _) with 2%nat. cbn [INR].
    pose proof (pos_INR c). unfold Rdiv. apply Rmult_le_pos; [|lra]. apply Rmult_le_pos; [exact H|]. left. apply Rinv_0_lt_compat. lra. }
  assert (forall a, np_max [a] = Ok a) as NM by (intros []; reflexivity). assert (forall a, np_min [a] = Ok a) as NM' by (intros []; reflexivity).
  destruct (calc_always x) as [st [gr [ar [Ec [E1 [E2 [E3 [E4 E5]]]]]]]].
  assert (convergence_check acor1 g_two (mkM None [] [] [] [] true [sp] [p_a] None 0 0 false false 0 (Fin (-1)) PInf (Fin (-1)) PInf) =
     Ok (mkM (Some [Fin 1]) [] [] [] [] true [sp] [p_a] (Some [[x; x]]) 4 0 false (st_mixed st) (if st_mixed st then 1%nat else 0%nat) (Fin (INR 2 / 1)) ar (Fin (-1)) gr)) as E6.
  { unfold convergence_check. change (Nat.eqb (g_ensembles g_two) 0) with false. cbv iota zeta. cbn [m_samplers map sp sp_chain m_nburn m_oac m_burned]. change (g_minpercent g_two) with 0. rewrite R0. cbn [andb].
    change (nw_of g_two) with 2%nat. change (g_ndim g_two) with 1%nat. change (g_th g_two) with th0. rewrite Ec. cbn [bind]. rewrite E1, E2, E3, E4, E5. cbn [py_min py_max fold_left bind]. rewrite !NM, !NM'. cbn [bind]. reflexivity. }
  unfold mcmc. change (num_run g_two) with (Ok 2%Z : res Z). cbn [bind]. change (Z.to_nat 2) with 2%nat. cbn [rounds]. unfold one_round, round_to_save at 1. rewrite E0. cbn [bind]. rewrite E6. cbn [bind].
  unfold burn_step at 1. cbn [m_burned negb m_maxgr m_minafactor g_two g_burnGR g_burnA]. unfold ext_leb at 2. rewrite (rleb_t 1 (INR 2 / 1)) by (cbn [INR]; lra). rewrite orb_true_r.
  cbn [andb m_samplers map_res last_sample rev sp_chain app bind map sp]. cbn [m_mixcount m_oac m_autosamples m_automean m_automin m_automax m_started m_inits m_chains m_ncomplete m_nburn m_burned m_ismixed m_minafactor m_maxarchange m_mintz m_maxgr].
  assert ((2 <=? (if st_mixed st then 1 else 0))%nat = false) as -> by (destruct (st_mixed st); reflexivity).
  set (M := mkM _ _ _ _ _ _ _ _ _ _ _ _ _ _ _ _ _ _). set (y := mkS (map (map (Rplus 1)) (s_pos x)) (map (fun _ => Fin 0) p_a)). fold g_two.
  assert (exists sp2 inp, sample_round tr1 g_two M = Ok (mkM (Some [Fin 1]) [] [] [] [] true [sp2] inp (Some [[x; x]]) 4 4 true (st_mixed st) (if st_mixed st then 1%nat else 0%nat) (Fin (INR 2 / 1)) ar (Fin (-1)) gr) /\ sp_chain sp2 = [y; y]) as (sp2 & inp & E7 & E8) by (do 2 eexists; split; reflexivity).
  unfold round_to_save. rewrite E7. cbn [bind]. destruct (calc_second y) as [st2 [gr2 [ar2 [Fc [F1 [F2 [F3 [F4 [F5 F6]]]]]]]]].
  unfold convergence_check. change (Nat.eqb (g_ensembles g_two) 0) with false. cbv iota zeta. cbn [m_samplers map sp_chain m_nburn m_oac m_burned]. rewrite E8. change (g_minpercent g_two) with 0. rewrite R0. cbn [andb].
  change (nw_of g_two) with 2%nat. change (g_ndim g_two) with 1%nat. change (g_th g_two) with th0. rewrite Fc. cbn [bind]. rewrite F1, F2, F3, F4, F5, F6. cbn [py_min py_max fold_left bind]. rewrite !NM, !NM'. cbn [bind].
  unfold burn_step. cbn [m_burned negb andb bind m_mixcount Nat.leb m_chains]. cbn [thinned g_thin g_two bind].
  eexists; eexists. exists (mkAuto [INR 2] [1] [1] [1] [40]). eexists. split; [reflexivity|]. split; [|split; [reflexivity|reflexivity]].
  unfold table_of. cbn [m_autosamples m_automin m_automean m_automax a_n a_min a_mean a_max a_factor app map length repeat Nat.mul Nat.add]. repeat split; try reflexivity.
  unfold ext_mean, ext_sum. cbn [fold_left ext_add length]. unfold ext_div. cbn [INR]. rewrite (proj2 (reqb_false _ _)) by lra. repeat f_equal. lra.
Qed.
Lemma derived_ex : exists dp cs, derived_plot 2 None ["rhop1"%string] xe_chains = Ok dp /\ derived_corner dp = Ok cs.
Proof.
  destruct (derived_plot_total 2 None ["rhop1"%string] xe_chains) as [dp H].
  { apply xe_hyps. }
  exists dp. pose proof (plot_labels _ _ _ _ _ H) as PL. unfold derived_corner.
  destruct (map_res_all (fun l => column (fst dp) (d_label l)) (snd dp)) as [cols Hc].
  { intros l Hl. destruct (plot_from _ _ _ _ _ H l Hl) as (p & i & col & l' & _ & _ & G & _ & _ & Q). unfold column.
    assert (In (d_label l) (filter (usable xe_chains ["rhop1"%string]) (numbered DERIVED 2))) as I by (rewrite <- PL; now apply in_map).
    apply filter_In in I as [_ U]. assert (dmem (fst dp) (d_label l) = true) as D by (rewrite (plot_dmem _ _ _ _ _ H); unfold usable in U; apply andb_true_iff in U; tauto).
    unfold dmem in D. destruct (dget (fst dp) (d_label l)); [eauto|discriminate]. }
  exists (combine (map (fun l => (match d_tex l with Some t => t | None => "None" end ++ " [" ++ d_unit l ++ "]")%string) (snd dp)) cols). split; [exact H|]. rewrite Hc. reflexivity.
Qed.
