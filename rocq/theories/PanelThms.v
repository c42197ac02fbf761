(** C76: what the panels of a fit show. *)
From Coq Require Import Reals String ZArith Arith Bool Lia Lra List.
From Verif Require Import Py PyFloat PyFacts PyFloatFacts Params ParamsProofs ParamsSpec VectorProofs Kepler Basis BasisProofs BasisConv BasisThms BasisModel VConv RVModel RVModelProofs ModelThms Likelihood LikeSpec LikeProofs LikeHist LikeBuild LikeAlign Phase PhaseProofs Stats FastBin FastBinSpec FastBinProofs Timebin TelPlot TelPlotSpec TelPlotProofs TelPlotThms Panels PanelSpec PanelProofs PanelFit.
Import ListNotations.
Open Scope R_scope.

Lemma non_orbital_trend num : non_orbital num "dvdt" /\ non_orbital num "curv".
Proof.
  split; intros n p _ Hp; unfold key; intro Z; unfold PNAMES in Hp; cbn in Hp;
    repeat (destruct Hp as [<-|Hp]; [cbn in Z; discriminate|]); destruct Hp.
Qed.
Lemma par_value_at h ps k x : par_value h (ps_items ps) k = Ok x -> value_at h ps k = Some x.
Proof. unfold par_value, value_at. destruct (get_param _ _ _) as [p|]; [|discriminate]. destruct (p_value p); [congruence|discriminate]. Qed.

Lemma shown_shift x mt epoch ep plt mplt : shown_times x mt epoch = (ep, plt, mplt) ->
  exists d, shift epoch x d /\ plt = map (fun t => t - d) x /\ mplt = map (fun t => t - d) mt.
Proof.
  unfold shown_times. assert (forall l : list R, l = map (fun t => t - 0) l) as Z0.
  { intro l. rewrite <- (map_id l) at 1. apply map_ext. intro; lra. }
  destruct (existsb _ x) eqn:EX; intro H.
  - injection H as <- <- <-. exists 0. split; [left; split; [|reflexivity]|split; apply Z0].
    apply existsb_exists in EX as (t & Ht & HLt). apply rltb_true in HLt. exists t. split; auto.
  - assert (forall t, In t x -> -2400000 <= t - epoch) as Q.
    { intros t Ht. destruct (Rle_or_lt (-2400000) (t - epoch)) as [|Lt]; auto. exfalso. assert (existsb (fun t => rltb (t - epoch) (- 2400000)) x = true); [|congruence].
      apply existsb_exists. exists t. split; auto. apply rltb_true. lra. }
    destruct (reqb epoch 0) eqn:E0; injection H as <- <- <-.
    + apply reqb_true in E0. exists 2450000. split; [right; auto|auto].
    + apply reqb_false in E0. exists epoch. split; [right; auto|auto].
Qed.

Lemma f2_length {A B} (Q : A -> B -> Prop) l m : Forall2 Q l m -> length l = length m.
Proof. induction 1; cbn; congruence. Qed.

Lemma f2_at {A B} (Q : A -> B -> Prop) l m : Forall2 Q l m -> forall y, In y m -> exists k x, nth_error l k = Some x /\ nth_error m k = Some y /\ Q x y.
Proof.
  induction 1 as [|a c l m H F IH]; intros y Hy; [destruct Hy|]. destruct Hy as [<-|Hy]; [exists 0%nat, a; cbn; auto|].
  destruct (IH y Hy) as (k & x & A1). exists (S k), x. exact A1.
Qed.

Lemma dset_mem {V} (d : dict V) k v k' : k' = k \/ In k' (dkeys d) -> In k' (dkeys (dset d k v)).
Proof.
  intro H. destruct (in_dec string_dec k' (dkeys (dset d k v))) as [|N]; auto. apply dget_none in N. destruct (string_dec k' k) as [->|M].
  - rewrite dget_dset_same in N. discriminate.
  - rewrite dget_dset_other in N by auto. apply dget_none in N. tauto.
Qed.

Lemma value_has h0 ps k x : value_at h0 ps k = Some x -> has h0 (ps_items ps) k x.
Proof. unfold value_at, has. destruct (get_param _ _ _) as [p0|]; [|discriminate]. eauto. Qed.

Section Panels.
  Variables (use_c : bool) (fuel : nat) (argsort : list ext -> list nat).
  Variables (q : fitted) (ds : list dataset) (b : string) (names : list string) (E : nat -> elements).
  Hypothesis FO : fit_of q ds b names E.
  Let num := ps_num (q_params q).
  Let E1 n := els b (meaning (E n)).
  Variables (epoch : R) (xlim : option (R * R)) (save : bool) (f : plotted).
  Hypothesis PI : plot_init use_c fuel q epoch xlim save = Ok f.

  Lemma data_same : q_x q = times ds /\ q_tel q = tels ds.
  Proof.
    destruct (fit_facts use_c fuel q ds b names E FO) as (_ & _ & _ & _ & _ & _ & F & _). unfold q_x, q_tel, times, tels.
    revert F. generalize (v_indices (q_vec q)) (dkeys (ps_items (q_params q))) (ps_num (q_params q)) (q_likes q). clear. intros idx keys n ls F. induction F as [|d l ds0 ls (B1 & _ & _ & B4 & _) F IH]; [auto|]. destruct IH as [I1 I2]. cbn [map concat]. rewrite B1, B4, I1, I2. auto.
  Qed.

  Definition ready (S : solution) (d : R) : Prop :=
    solution_of use_c fuel q ds names E (f_rows f) (times ds ++ f_mt f) S /\ Forall sized ds /\ times ds <> [] /\
    f_err f = tabulate (uncertainty S) 0 ds /\ f_raw f = tabulate (residual S num) 0 ds /\
    f_model f = map (fun t => planets S (all_planets num) t + trend S t) (f_mt f) /\
    f_rvmod f = map (fun t => planets S (all_planets num) t + trend S t) (times ds) /\
    f_slope f = map (trend S) (f_mt f) /\ f_slope_low f = map (trend S) (times ds) /\
    shift epoch (times ds) d /\ f_plt f = map (fun t => t - d) (times ds) /\ f_mplt f = map (fun t => t - d) (f_mt f) /\
    (forall n, (1 <= n <= num)%nat -> recovered names (E n) (E1 n) /\ holds (f_heap f) (f_params f) SYNTH n (meaning (E1 n))) /\
    (forall n, (1 <= n <= num)%nat -> In "tc"%string names -> value_at (f_heap f) (f_params f) (key "tc" n) = Some (meaning (E n) "tc")) /\
    (forall n, (1 <= n <= num)%nat -> ~ In "tc"%string names -> ~ In (key "tc" n) (dkeys (ps_items (f_params f)))) /\
    (forall n t vel, (1 <= n <= num)%nat -> q_model use_c fuel q (f_rows f) t (Some (Z.of_nat n)) = Ok vel -> vel = map (fun t => so_curve S n t + trend S t) t) /\
    (exists v0, agree (marg_rows (q_likes q) v0) v0 (f_rows f)) /\
    (exists a, q_model use_c fuel q (f_rows f) (times ds) None = Ok a) /\ (exists a, q_model use_c fuel q (f_rows f) (f_mt f) None = Ok a).

  Lemma init_ready : exists S d, ready S d.
  Proof.
    pose proof PI as H. unfold plot_init in H. destruct data_same as [DX DT].
    destruct (to_synth _ _ _ _ _) as [[h sp]|] eqn:ET; [|discriminate]. cbn [bind] in H.
    destruct (dict_to_vector _ _ _) as [v0|] eqn:EV; [|discriminate]. cbn [bind] in H.
    destruct (comp_errorbars _ _) as [err|] eqn:EE; [|discriminate]. cbn [bind] in H.
    destruct (comp_residuals _ _) as [v [raw|]] eqn:ER; [|discriminate]. cbn [bind] in H.
    destruct (par_value h (ps_items sp) "dvdt") as [dvdt|] eqn:ED; [|discriminate]. cbn [bind] in H.
    destruct (par_value h (ps_items sp) "curv") as [curv|] eqn:EC; [|discriminate]. cbn [bind] in H.
    destruct (map_res _ _) as [periods|]; [|discriminate]. cbn [bind] in H.
    destruct (model_times _ _ _ _ _) as [mt|] eqn:EM; [|discriminate]. cbn [bind] in H.
    destruct (q_model _ _ _ _ mt None) as [om|] eqn:E5; [|discriminate]. cbn [bind] in H.
    destruct (q_model _ _ _ _ (q_x q) None) as [rvmod|] eqn:E6; [|discriminate]. cbn [bind] in H.
    destruct (shown_times _ _ _) as [[ep plt] mplt] eqn:E7. injection H as H.
    destruct (synth_facts q ds b names E FO h sp ET) as (HX & SY & NO & TC1 & TC2). fold num in SY, NO, TC1, TC2.
    apply par_value_at in ED, EC. rewrite (NO _ (proj1 (non_orbital_trend num))) in ED. rewrite (NO _ (proj2 (non_orbital_trend num))) in EC.
    destruct (raw_all use_c fuel q ds b names E FO v0 v raw ER) as (AG & NE & rs & RS & RC).
    destruct (fit_facts use_c fuel q ds b names E FO) as (_ & _ & _ & _ & _ & _ & BF & _).
    destruct (raw_table use_c fuel q ds b names E FO h v0 HX EV dvdt curv ED EC ds (q_likes q) rs BF (fun x Hx => Hx) RS) as (SZ & MV & G & C & RT & GA & CO & RE).
    destruct (err_all use_c fuel q ds b names E FO h v0 HX EV err SZ EE) as (J & ET' & JI).
    pose (S := mkSol (fun n => curve_of use_c fuel (E1 n)) dvdt curv (q_tb q) G J C).
    assert (forall t, total use_c fuel q b E dvdt curv t = planets S (all_planets num) t + trend S t) as TOT by reflexivity.
    rewrite DX in *. destruct (shown_shift _ _ _ _ _ _ E7) as (d & SH & P1 & P2).
    assert (times ds <> []) as NT by (intro Z; rewrite Z in EM; discriminate).
    destruct (model_value use_c fuel q ds b names E FO h v0 HX EV dvdt curv ED EC v mt None om AG I E5) as [O1 O2].
    destruct (model_value use_c fuel q ds b names E FO h v0 HX EV dvdt curv ED EC v (times ds) None rvmod AG I E6) as [R1 R2].
    exists S, d. unfold ready. rewrite <- H. cbn [f_rows f_err f_raw f_mt f_model f_rvmod f_slope f_slope_low f_plt f_mplt f_heap f_params].
    split; [split; cbn [so_curve so_dvdt so_curv so_tb so_gam so_jit so_cor S]|].
    - exists E1. split; [intros n Hn; now apply SY|]. intros n t Hn Ht. assert (In n (seq 1 num)) as Hs by (apply in_seq; fold num in Hn; lia).
      apply in_app_or in Ht as [Ht|Ht]; [apply R2|apply O2]; auto.
    - exact ED.
    - exact EC.
    - reflexivity.
    - exact JI.
    - exact GA.
    - exact CO.
    - intros k d0 l Hd Hl. destruct (resid_same use_c fuel q ds b names E FO v0 l v (nth_error_In _ _ Hl) AG) as [-> _].
      rewrite (RE k d0 l Hd Hl). f_equal. apply per_row_ext. intros i t y e _. rewrite TOT. unfold residual, velocity. change (so_gam S) with G. change (so_cor S) with C. fold num. lra.
    - split; [exact SZ|]. split; [exact NT|]. split; [exact ET'|]. split.
      { rewrite RC, RT. apply tabulate_ext. intros k i t y e _. rewrite TOT. unfold residual, velocity. change (so_gam S) with G. change (so_cor S) with C. fold num. lra. }
      split; [exact O1|]. split; [exact R1|]. split; [reflexivity|]. split; [reflexivity|]. split; [exact SH|]. split; [exact P1|]. split; [exact P2|].
      split; [exact SY|]. split; [exact TC1|]. split; [exact TC2|]. split; [|split; [exists v0; exact AG|split; eauto]].
      assert (forall n, (1 <= n <= num)%nat -> valid_planet (ps_num (q_params q)) (Some (Z.of_nat n))) as VPn by (intros n Hn; cbn; unfold num in Hn; lia).
      intros n t vel Hn EQ.
      destruct (model_value use_c fuel q ds b names E FO h v0 HX EV dvdt curv ED EC v t (Some (Z.of_nat n)) vel AG (VPn n Hn) EQ) as [Q1 _].
      rewrite Q1. apply map_ext. intro x. unfold who. rewrite Nat2Z.id. cbn [map]. rewrite rsum_cons. change (rsum []) with 0.
      change (trend S x) with (dvdt * (x - q_tb q) + curv * (x - q_tb q) ^ 2). change (so_curve S n x) with (curve_of use_c fuel (els b (meaning (E n))) x). lra.
  Qed.

  Lemma at_shows (X : Type) (l : list X) i a : at_ l i = Ok a -> nth_error l i = Some a.
  Proof. unfold at_. destruct (nth_error l i); congruence. Qed.

  Lemma combine_maps {A B C} (g : A -> B) (k : A -> C) l : combine (map g l) (map k l) = map (fun x => (g x, k x)) l.
  Proof. induction l as [|x l IH]; [reflexivity|]. cbn. now rewrite IH. Qed.
  Lemma map2_maps {A B C D} (op : B -> C -> D) (g : A -> B) (k : A -> C) l : map2 op (map g l) (map k l) = map (fun x => op (g x) (k x)) l.
  Proof. induction l as [|x l IH]; [reflexivity|]. cbn. now rewrite IH. Qed.

  Section Ready.
    Variables (S : solution) (d : R).
    Hypothesis RD : ready S d.

    (** the marked point of a panel of all data *)
    Lemma last_point Y (highlight : bool) last : length (tabulate Y 0 ds) = length (times ds) ->
      (if highlight then let i := argmax_r (f_plt f) in do a <- at_ (f_plt f) i; do b <- at_ (tabulate Y 0 ds) i; Ok (Some (a, b)) else Ok None) = Ok last ->
      (highlight = false -> last = None) /\
      (highlight = true -> exists i t y, latest (times ds) i t /\ nth_error (tabulate Y 0 ds) i = Some y /\ last = Some (t - d, y)).
    Proof.
      intros L H. destruct RD as (_ & _ & NT & _ & _ & _ & _ & _ & _ & _ & P1 & _). destruct highlight; [|split; [congruence|discriminate]].
      split; [discriminate|]. intros _. rewrite P1, argmax_shift in H. destruct (argmax_latest _ NT) as (t & LT). exists (argmax_r (times ds)), t.
      cbv zeta in H. destruct (at_ (map _ _) _) as [a|] eqn:EA; [|discriminate]. cbn [bind] in H. destruct (at_ (tabulate _ _ _) _) as [y|] eqn:EB; [|discriminate]. cbn [bind] in H.
      apply at_shows in EA, EB. exists y. split; auto. split; auto. rewrite nth_error_map, (proj1 LT) in EA. cbn in EA. congruence.
    Qed.

    Lemma timeseries_shows telfmts show_rms highlight fm p : plot_timeseries use_c fuel q f telfmts show_rms highlight = Ok (fm, p) ->
      shows ds (f_mt f) S epoch highlight (velocity S) (fun t => planets S (all_planets num) t + trend S t) p.
    Proof.
      unfold plot_timeseries. intro H. pose proof RD as (_ & SZ & NT & RE & RR & RM & RV & RS & RL & SH & P1 & P2 & _).
      destruct (if show_rms then _ else _) as [rms|]; [|discriminate]. cbn [bind] in H. cbv zeta in H.
      assert (map2 Rplus (f_raw f) (f_rvmod f) = tabulate (velocity S) 0 ds) as VE.
      { rewrite RR, RV, tabulate_map2 by auto. apply tabulate_ext. intros. unfold residual. lra. }
      rewrite VE in H. destruct (mtelplot _ _ _ _ _ _) as [[fm' ss]|] eqn:EM; [|discriminate]. cbn [bind] in H.
      destruct (if highlight then _ else _) as [last|] eqn:EL; [|discriminate]. cbn [bind] in H. injection H as <- <-. cbn [g_curve g_series g_last].
      exists d. split; auto. cbn [g_curve g_series g_last]. destruct data_same as [DX DT]. split.
      { rewrite P1, RE, DT in EM. apply mtel_drawn in EM; auto; rewrite ?map_length, ?tabulate_len, ?tels_len by auto; auto. }
      split; [rewrite P2, RM; apply combine_maps|].
      apply last_point; auto. now apply tabulate_len.
    Qed.

    Lemma residuals_shows telfmts highlight fm p : plot_residuals q f telfmts highlight = Ok (fm, p) ->
      shows ds (f_mt f) S epoch highlight (residual S num) (fun _ => 0) p.
    Proof.
      unfold plot_residuals. intro H. pose proof RD as (_ & SZ & NT & RE & RR & RM & RV & RS & RL & SH & P1 & P2 & _).
      rewrite RR in H. destruct (mtelplot _ _ _ _ _ _) as [[fm' ss]|] eqn:EM; [|discriminate]. cbn [bind] in H.
      destruct (if highlight then _ else _) as [last|] eqn:EL; [|discriminate]. cbn [bind] in H. injection H as <- <-.
      exists d. split; auto. cbn [g_curve g_series g_last]. destruct data_same as [DX DT]. split.
      { rewrite P1, RE, DT in EM. apply mtel_drawn in EM; auto; rewrite ?map_length, ?tabulate_len, ?tels_len by auto; auto. }
      split; [rewrite P2, RS, map2_maps, combine_maps; apply map_ext; intro; f_equal; lra|].
      apply last_point; auto. now apply tabulate_len.
    Qed.

    Lemma phase_facts n : (1 <= n <= num)%nat -> exists t0, phase_zero names (E n) t0 /\ forall ts cat, exists phs,
      Forall2 (is_phase (el_per (E n)) t0) ts phs /\
      t_to_phase (f_heap f) (ps_items (f_params f)) ts n cat = Ok (map Fin (if cat then (phs ++ map (fun x => x + 1) phs)%list else phs)).
    Proof.
      intro Hn. pose proof RD as (_ & _ & _ & _ & _ & _ & _ & _ & _ & _ & _ & _ & HH & T1 & T2 & _).
      destruct (HH n Hn) as [RC HO]. destruct (fit_facts use_c fuel q ds b names E FO) as (HB & _).
      destruct (fo_elements _ _ _ _ _ FO n Hn) as [DO _].
      assert (el_per (E n) <> 0) as HP by (destruct DO; lra).
      assert (has (f_heap f) (ps_items (f_params f)) (key "per" n) (el_per (E n))) as HPer.
      { apply value_has. rewrite (HO "per"%string) by (cbn; tauto). rewrite <- (proj1 (rec_shape _ _ _ RC)). reflexivity. }
      destruct (in_dec string_dec "tc" names) as [IT|NI].
      - exists (meaning (E n) "tc"). split; [left; auto|]. intros ts cat. apply t_to_phase_spec; auto. apply ref_tc, value_has, T1; auto.
      - exists (el_tp (E n)). split; [right; auto|]. intros ts cat. apply t_to_phase_spec; auto. apply ref_tp; [now apply T2|].
        apply value_has. rewrite (HO "tp"%string) by (cbn; tauto).
        assert (In "w"%string names) as IW by (clear -HB NI; unfold FIT_BASES in HB; cbn in HB; repeat (destruct HB as [HB|HB]; [injection HB as <- <-; cbn in *; tauto|]); destruct HB).
        fold E1 in RC. rewrite (rec_w _ _ _ RC IW). reflexivity.
    Qed.

    Lemma finite_map l : map_res (fun a => finite (ext_add a (Fin 1))) (map minus1 (map Fin l)) = Ok l.
    Proof. induction l as [|x l IH]; [reflexivity|]. cbn. cbn in IH. rewrite IH. cbn. f_equal. f_equal. lra. Qed.
    Lemma minus_twice phs : map minus1 (map Fin (phs ++ map (fun x => x + 1) phs)) = map Fin (twice_folded phs).
    Proof.
      unfold twice_folded. rewrite !map_app, !map_map. f_equal. apply map_ext. intro x. cbn. f_equal. lra.
    Qed.
    Lemma curve_pts (xs : list ext) (ys : list R) is0 out : length xs = length ys ->
      map_res (fun i => do a <- at_ xs i; do b <- at_ ys i; Ok (a, b)) is0 = Ok out -> Forall2 (fun i p => nth_error (combine xs ys) i = Some p) is0 out.
    Proof.
      intros L. revert out. induction is0 as [|i r IH]; intros out H; [injection H as <-; constructor|]. cbn in H.
      destruct (at_ xs i) as [a|] eqn:EA; [|discriminate]. cbn in H. destruct (at_ ys i) as [c|] eqn:EB; [|discriminate]. cbn in H.
      destruct (map_res _ r) as [o|] eqn:EO; [|discriminate]. cbn in H. injection H as <-. constructor; [|now apply IH].
      apply at_shows in EA, EB. clear -EA EB. revert i ys EA EB. induction xs as [|x xs IH]; intros [|i] [|y ys] EA EB; cbn in *; try discriminate; [congruence|eauto].
    Qed.

    Lemma phasefold_shows telfmts nobin highlight n fm p bins : (1 <= n <= num)%nat ->
      plot_phasefold use_c fuel argsort q f telfmts nobin highlight n = Ok (fm, p, bins) ->
      shows_phase argsort ds (f_mt f) S num n names (E n) nobin highlight p bins.
    Proof.
      unfold plot_phasefold. intros Hn H. pose proof RD as (_ & SZ & NT & RE & RR & RM & RV & RS & RL & SH & P1 & P2 & _ & _ & _ & MV & _).
      destruct data_same as [DX DT]. rewrite DX, DT in H. destruct (phase_facts n Hn) as (t0 & PZ & PH).
      destruct (q_model _ _ _ _ (f_mt f) _) as [m2|] eqn:E2; [|discriminate]. cbn [bind] in H.
      destruct (PH (f_mt f) true) as (mphs & MP & MT). rewrite MT in H. cbn [bind] in H.
      destruct (q_model _ _ _ _ (times ds) _) as [m1|] eqn:E3; [|discriminate]. cbn [bind] in H.
      destruct (PH (times ds) true) as (phs & FP & FT). rewrite FT in H. cbn [bind] in H.
      apply MV in E2, E3; auto.
      assert (map2 Rminus (map2 Rplus (f_raw f) m1) (f_slope_low f) = tabulate (isolated S num n) 0 ds) as VE.
      { rewrite RR, E3, RL, !tabulate_map2 by auto. apply tabulate_ext. intros. unfold residual, isolated, planets, all_planets, others.
        rewrite (rsum_others _ n (seq 1 num)); [lra|apply seq_NoDup|apply in_seq; lia]. }
      assert (map2 Rminus m2 (f_slope f) = map (so_curve S n) (f_mt f)) as ME.
      { rewrite E2, RS, map2_maps. apply map_ext. intro. lra. }
      cbv zeta in H. rewrite VE, ME in H. rewrite finite_map in H. cbn [bind] in H. rewrite minus_twice in H. rewrite minus_twice in H.
      destruct (fastbin _ _ _) as [bn|] eqn:EF; [|discriminate]. cbn [bind] in H.
      destruct (map_res _ (argsort _)) as [curve|] eqn:EC; [|discriminate]. cbn [bind] in H.
      destruct (if highlight then _ else _) as [last|] eqn:EL; [|discriminate]. cbn [bind] in H.
      destruct (mtelplot _ _ _ _ _ _) as [[fm' ss]|] eqn:EM; [|discriminate]. cbn [bind] in H. injection H as <- <- <-.
      assert (length phs = length (times ds)) as LP by (symmetry; eapply f2_length; eauto).
      assert (length mphs = length (f_mt f)) as LM by (symmetry; eapply f2_length; eauto).
      exists t0, phs, mphs. split; auto. split; auto. split; auto. cbv zeta. cbn [g_curve g_series g_last]. split.
      { rewrite RE in EM. apply mtel_drawn in EM; auto; unfold twice_folded; rewrite ?map_length, ?app_length, ?map_length, ?tabulate_len, ?tels_len by auto; auto. }
      split.
      { unfold phase_curve. rewrite combine_fst. 2:{ unfold twice_folded. rewrite !map_length, !app_length, !map_length. lia. }
        apply curve_pts; auto. unfold twice_folded. rewrite !map_length, !app_length, !map_length. lia. }
      split; [intros ->; congruence|]. split.
      { intros ->. destruct (argmax_latest _ NT) as (t & LT). unfold at_ at 1 in EL. rewrite (proj1 LT) in EL. cbn [bind] in EL.
        destruct (PH [t] false) as (hp & HF & HT). rewrite HT in EL. cbn [bind] in EL. inversion HF as [|? ph ? ? Q1 Q2]; subst. inversion Q2; subst. cbn [map at_ nth_error bind] in EL.
        destruct (at_ (tabulate _ _ _ ++ _) _) as [y|] eqn:EY; [|discriminate]. cbn [bind] in EL. apply at_shows in EY. rewrite nth_error_app1 in EY.
        2:{ rewrite tabulate_len by auto. apply nth_error_Some. rewrite (proj1 LT). discriminate. }
        exists (argmax_r (times ds)), t, y, ph.
        unfold ext_ltb in EL. destruct (rltb (1 / 2) ph) eqn:ELt.
        - exists (ph - 1). repeat (split; [assumption|]). apply rltb_true in ELt. split; [injection EL as <-; reflexivity|right; lra].
        - exists ph. repeat (split; [assumption|]). apply rltb_false in ELt. split; [injection EL as <-; reflexivity|left; lra]. }
      split.
      - intros [->|LL]; [reflexivity|]. apply Nat.ltb_lt in LL. rewrite LL. destruct nobin; reflexivity.
      - intros -> LL. assert (Nat.ltb (length (times ds)) 20 = false) as -> by (apply Nat.ltb_ge; lia). cbn [orb negb].
        rewrite tabulate_len by auto. assert (Nat.ltb 10 (length (times ds)) = true) as -> by (apply Nat.ltb_lt; lia). cbn [andb].
        destruct (fastbin_spec (phs ++ map (fun x => x + 1) phs) (tabulate (isolated S num n) 0 ds ++ tabulate (isolated S num n) 0 ds) 25) as (lo & hi & out & B1 & B2 & B3).
        + lia.
        + rewrite !app_length, map_length, tabulate_len by auto. lia.
        + intro Z. apply (f_equal (@length R)) in Z. rewrite app_length in Z. change (length (@nil R)) with 0%nat in Z. apply NT, length_zero_iff_nil. lia.
        + exists lo, hi, out. split; auto. split; auto. rewrite B1 in EF. now injection EF as <-.
    Qed.

    (** ** the scatters in the legend *)
    Lemma spread_std l : np_std l = spread l.
    Proof. unfold np_std, spread, mean. now rewrite map_length. Qed.
    Lemma rms_loop_inv ls : forall v acc v0 v1 r, incl ls (q_likes q) -> agree (marg_rows (q_likes q) v0) v0 v -> agree (marg_rows (q_likes q) v0) v0 (f_rows f) ->
      rms_loop use_c fuel q ls v acc = (v1, r) ->
      exists D, r = Ok D /\ (forall t, In t (dkeys acc) \/ In t (map l_suffix ls) -> In t (dkeys D)) /\
        forall t x, dget D t = Some x -> dget acc t = Some x \/ exists l y, In l ls /\ l_suffix l = t /\ snd (rv_residuals (q_fwd use_c fuel q) l (f_rows f)) = Ok y /\ x = np_std y.
    Proof.
      induction ls as [|l ls IH]; intros v acc v0 v1 r HI AG AF H; cbn [rms_loop] in H.
      - injection H as <- <-. exists acc. split; auto. split; [intros t [Q|[]]; auto|]. auto.
      - pose proof (HI l (or_introl eq_refl)) as HL. destruct (resid_same use_c fuel q ds b names E FO v0 l v HL AG) as [Q1 Q2].
        destruct (resid_same use_c fuel q ds b names E FO v0 l (f_rows f) HL AF) as [Q3 _].
        destruct RD as (SO & _). destruct (fit_facts use_c fuel q ds b names E FO) as (_ & _ & _ & _ & _ & _ & BF & _).
        destruct (f2_at _ _ _ BF l HL) as (k & d0 & K1 & K2 & _).
        pose proof (sf_resid _ _ _ _ _ _ _ _ _ SO k d0 l K1 K2) as QR. rewrite Q3 in QR. rewrite QR in Q1. rewrite <- Q3 in QR.
        destruct (rv_residuals (q_fwd use_c fuel q) l v) as [v2 r2]. cbn [fst snd] in *. subst r2.
        destruct (IH _ _ _ _ _ (fun x Hx => HI x (or_intror Hx)) Q2 AF H) as (D & -> & I1 & I2). exists D. split; auto. split.
        + intros t Ht. apply I1. cbn [map] in Ht. destruct Ht as [Ht|[<-|Ht]]; [left|left|right]; auto; apply dset_mem; auto.
        + intros t x Hx. destruct (I2 t x Hx) as [A|(l' & y & A1 & A2)]; [|right; exists l', y; split; [now right|exact A2]].
          destruct (string_dec t (l_suffix l)) as [->|N].
          * rewrite dget_dset_same in A. injection A as <-. right. exists l. eexists. split; [now left|]. split; auto. split; [exact QR|reflexivity].
          * rewrite dget_dset_other in A by auto. now left.
    Qed.
    Lemma rms_result : exists D, snd (rms_loop use_c fuel q (q_likes q) (f_rows f) []) = Ok D /\ (forall t, In t (tels ds) -> In t (dkeys D)) /\
      forall t x, dget D t = Some x -> exists k d0, nth_error ds k = Some d0 /\ strip_us (ds_suffix d0) = t /\ x = spread (per_row (residual S num k) 0 (ds_t d0) (ds_y d0) (ds_err d0)).
    Proof.
      pose proof RD as (SO & _ & _ & _ & _ & _ & _ & _ & _ & _ & _ & _ & _ & _ & _ & _ & (v0 & AG) & _).
      destruct (rms_loop _ _ _ _ _ _) as [v1 r] eqn:H. destruct (rms_loop_inv _ _ _ _ _ _ (incl_refl _) AG AG H) as (D & -> & I1 & I2).
      destruct (fit_facts use_c fuel q ds b names E FO) as (_ & _ & _ & _ & _ & _ & BF & _). exists D. split; auto. split.
      - intros t Ht. apply I1. right. revert Ht. unfold tels. clear -BF. revert BF. generalize (v_indices (q_vec q)) (dkeys (ps_items (q_params q))) (ps_num (q_params q)) (q_likes q). clear.
        intros idx keys n ls F. induction F as [|d0 l ds0 ls (_ & _ & _ & _ & _ & _ & _ & _ & B & _) F IH]; [easy|]. cbn [map concat]. intro Ht. apply in_app_or in Ht as [Ht|Ht]; [left|right; auto].
        apply in_map_iff in Ht as (u & <- & _). auto.
      - intros t x Hx. destruct (I2 t x Hx) as [A|(l & y & A1 & A2 & A3 & ->)]; [discriminate|].
        destruct (f2_at _ _ _ BF l A1) as (k & d0 & K1 & K2 & (_ & _ & _ & _ & _ & _ & _ & _ & B & _)). exists k, d0. split; auto. split; [congruence|].
        rewrite (sf_resid _ _ _ _ _ _ _ _ _ SO k d0 l K1 K2) in A3. injection A3 as <-. apply spread_std.
    Qed.

    Lemma timeseries_legend telfmts show_rms highlight fm p s : formats_wf telfmts -> plot_timeseries use_c fuel q f telfmts show_rms highlight = Ok (fm, p) -> In s (g_series p) ->
      exists name note r, dget (s_kw s) "label" = Some (name ++ note)%string /\ legend_name telfmts (s_tel s) name /\ rms_note note r /\
        (show_rms = false -> r = 0) /\
        (show_rms = true -> exists k d0, nth_error ds k = Some d0 /\ strip_us (ds_suffix d0) = s_tel s /\ r = spread (per_row (residual S num k) 0 (ds_t d0) (ds_y d0) (ds_err d0))).
    Proof.
      unfold plot_timeseries. intros W H Hs. destruct data_same as [_ DT]. rewrite DT in H. destruct rms_result as (D & D1 & D2 & D3).
      assert (exists rv, (if show_rms then snd (rms_loop use_c fuel q (q_likes q) (f_rows f) []) else Ok []) = Ok rv /\ rms_given rv (tels ds) /\
        (show_rms = false -> rv = []) /\ (show_rms = true -> rv = D)) as (rv & R0 & R1 & R2 & R3).
      { destruct show_rms; [exists D|exists []]; (split; [auto|]); (split; [|split; intro; congruence]); [right; exact D2|left; reflexivity]. }
      rewrite R0 in H. cbn [bind] in H. cbv zeta in H.
      destruct (mtelplot _ _ _ _ _ _) as [[fm' ss]|] eqn:EM; [|discriminate]. cbn [bind] in H.
      destruct (if highlight then _ else _) as [last|]; [|discriminate]. cbn [bind] in H. injection H as <- <-. cbn [g_series] in Hs.
      destruct (mtel_legend _ _ _ _ _ _ _ _ _ s W R1 EM Hs) as (name & note & r & Q1 & Q2 & Q3 & Q4 & Q5). exists name, note, r.
      split; [exact Q1|]. split; [exact Q2|]. split; [exact Q3|]. split; [intro Z; now apply Q4, R2|].
      intro Z. rewrite (R3 Z) in *. assert (In (s_tel s) (tels ds)) as IT.
      { pose proof RD as (_ & SZ & NT & RE & RR & RM & RV & RS & RL & SH & P1 & P2 & _).
        apply mtel_drawn in EM; [now apply EM, in_map|..]; rewrite ?P1, ?RR, ?RV, ?RE, ?map_length; rewrite ?tabulate_map2, ?tabulate_len, ?tels_len by auto; auto. }
      assert (D <> []) as ND by (intros ->; now apply D2 in IT). destruct (D3 _ _ (Q5 ND)) as (k & d0 & K1 & K2 & K3). eauto.
    Qed.

    (** ** the panels are drawn *)
    Lemma one_planet t n a : (1 <= n <= num)%nat -> q_model use_c fuel q (f_rows f) t None = Ok a -> exists c, q_model use_c fuel q (f_rows f) t (Some (Z.of_nat n)) = Ok c.
    Proof.
      intros Hn H. destruct (superposition _ _ _ _ _ _ H) as (w & d1 & c1 & os & cs & EW & TR & L1 & L2 & HH & _).
      unfold q_model. eapply call_succeeds; [exact EW|exact TR|]. cbn [planets_of m_params]. intros z [<-|[]].
      cbn [planets_of m_params] in *. fold num in HH, L1, L2. rewrite map_length, seq_length in L1, L2.
      assert (nth_error (map Z.of_nat (seq 1 num)) (n - 1) = Some (Z.of_nat n)) as Z1.
      { rewrite nth_error_map. rewrite (nth_error_nth' _ 0%nat) by (rewrite seq_length; lia). rewrite seq_nth by lia. cbn. f_equal. f_equal. lia. }
      destruct (nth_error os (n - 1)) as [o|] eqn:Eo; [|apply nth_error_None in Eo; lia].
      destruct (nth_error cs (n - 1)) as [c|] eqn:Ec; [|apply nth_error_None in Ec; lia].
      destruct (HH _ _ _ _ Z1 Eo Ec) as (A & x & B & _). eauto.
    Qed.

    Lemma timeseries_ok telfmts show_rms highlight : formats_wf telfmts -> colours_suffice telfmts (tels ds) ->
      exists fm p, plot_timeseries use_c fuel q f telfmts show_rms highlight = Ok (fm, p).
    Proof.
      intros W CS. unfold plot_timeseries. destruct data_same as [_ DT]. rewrite DT. destruct rms_result as (D & D1 & D2 & D3).
      assert (exists rv, (if show_rms then snd (rms_loop use_c fuel q (q_likes q) (f_rows f) []) else Ok []) = Ok rv /\ rms_given rv (tels ds)) as (rv & R0 & R1).
      { destruct show_rms; [exists D|exists []]; (split; [auto|]); [right; exact D2|left; reflexivity]. }
      rewrite R0. cbn [bind]. cbv zeta. pose proof RD as (_ & SZ & NT & RE & RR & RM & RV & RS & RL & SH & P1 & P2 & _).
      assert (map2 Rplus (f_raw f) (f_rvmod f) = tabulate (velocity S) 0 ds) as VE.
      { rewrite RR, RV, tabulate_map2 by auto. apply tabulate_ext. intros. unfold residual. lra. }
      rewrite VE, RE, P1. destruct (mtel_main (map (fun t => t - d) (times ds)) (tabulate (velocity S) 0 ds) (tabulate (uncertainty S) 0 ds) (tels ds) telfmts rv) as (fm' & ss & -> & _);
        rewrite ?map_length, ?tabulate_len, ?tels_len by auto; auto.
      cbn [bind]. destruct highlight; [|cbn [bind]; eauto]. destruct (argmax_latest _ NT) as (t & LT & _). rewrite argmax_shift. unfold at_. rewrite nth_error_map, LT. cbn [option_map bind].
      destruct (nth_error (tabulate _ _ _) _) as [y|] eqn:EY; [cbn; eauto|]. apply nth_error_None in EY. rewrite tabulate_len in EY by auto.
      assert (argmax_r (times ds) < length (times ds))%nat by (apply nth_error_Some; congruence). lia.
    Qed.

    Lemma residuals_ok telfmts highlight : formats_wf telfmts -> colours_suffice telfmts (tels ds) ->
      exists fm p, plot_residuals q f telfmts highlight = Ok (fm, p).
    Proof.
      intros W CS. unfold plot_residuals. destruct data_same as [_ DT]. rewrite DT. pose proof RD as (_ & SZ & NT & RE & RR & RM & RV & RS & RL & SH & P1 & P2 & _).
      rewrite RR, RE, P1. destruct (mtel_main (map (fun t => t - d) (times ds)) (tabulate (residual S num) 0 ds) (tabulate (uncertainty S) 0 ds) (tels ds) telfmts []) as (fm' & ss & -> & _);
        rewrite ?map_length, ?tabulate_len, ?tels_len by auto; auto; [now left|].
      cbn [bind]. destruct highlight; [|cbn [bind]; eauto]. destruct (argmax_latest _ NT) as (t & LT & _). rewrite argmax_shift. unfold at_. rewrite nth_error_map, LT. cbn [option_map bind].
      destruct (nth_error (tabulate _ _ _) _) as [y|] eqn:EY; [cbn; eauto|]. apply nth_error_None in EY. rewrite tabulate_len in EY by auto.
      assert (argmax_r (times ds) < length (times ds))%nat by (apply nth_error_Some; congruence). lia.
    Qed.

    Lemma suffice_twice telfmts : colours_suffice telfmts (tels ds) -> colours_suffice telfmts (tels ds ++ tels ds).
    Proof. intros (ts & A & B & C). exists ts. split; auto. split; auto. intros t Ht. apply B. now apply in_app_or in Ht as [|]. Qed.

    Lemma phasefold_ok telfmts nobin highlight n : (1 <= n <= num)%nat -> formats_wf telfmts -> colours_suffice telfmts (tels ds) ->
      (forall l i, In i (argsort l) -> (i < length l)%nat) ->
      exists fm p bins, plot_phasefold use_c fuel argsort q f telfmts nobin highlight n = Ok (fm, p, bins).
    Proof.
      intros Hn W CS AS. unfold plot_phasefold. pose proof RD as (_ & SZ & NT & RE & RR & RM & RV & RS & RL & SH & P1 & P2 & _ & _ & _ & MV & _ & (a1 & A1) & (a2 & A2)).
      destruct data_same as [DX DT]. rewrite DX, DT. destruct (phase_facts n Hn) as (t0 & PZ & PH).
      destruct (one_planet _ _ _ Hn A2) as (m2 & E2). rewrite E2. cbn [bind].
      destruct (PH (f_mt f) true) as (mphs & MP & MT). rewrite MT. cbn [bind].
      destruct (one_planet _ _ _ Hn A1) as (m1 & E3). rewrite E3. cbn [bind].
      destruct (PH (times ds) true) as (phs & FP & FT). rewrite FT. cbn [bind].
      apply MV in E2, E3; auto.
      assert (map2 Rminus (map2 Rplus (f_raw f) m1) (f_slope_low f) = tabulate (fun k i t y e => residual S num k i t y e + (so_curve S n t + trend S t) - trend S t) 0 ds) as VE.
      { now rewrite RR, E3, RL, !tabulate_map2 by auto. }
      assert (map2 Rminus m2 (f_slope f) = map (so_curve S n) (f_mt f)) as ME.
      { rewrite E2, RS, map2_maps. apply map_ext. intro. lra. }
      cbv zeta. rewrite VE, ME. set (Y := tabulate _ 0 ds). rewrite finite_map. cbn [bind]. rewrite minus_twice, minus_twice.
      assert (length Y = length (times ds)) as LY by now apply tabulate_len.
      assert (length phs = length (times ds)) as LP by (symmetry; eapply f2_length; eauto).
      assert (length mphs = length (f_mt f)) as LM by (symmetry; eapply f2_length; eauto).
      destruct (fastbin_spec (phs ++ map (fun x => x + 1) phs) (Y ++ Y) 25) as (lo & hi & out & -> & _).
      { lia. } { rewrite !app_length, map_length. lia. }
      { intro Z. apply (f_equal (@length R)) in Z. rewrite app_length in Z. change (length (@nil R)) with 0%nat in Z. apply NT, length_zero_iff_nil. lia. }
      cbn [bind].
      assert (forall is0, (forall i, In i is0 -> (i < length (map Fin (twice_folded mphs)))%nat) -> exists c, map_res (fun i => do a <- at_ (map Fin (twice_folded mphs)) i;
        do b <- at_ (map (so_curve S n) (f_mt f) ++ map (so_curve S n) (f_mt f)) i; Ok (a, b)) is0 = Ok c) as CC.
      { induction is0 as [|i r IH]; intro Hi; [eexists; reflexivity|]. cbn [map_res]. pose proof (Hi i (or_introl eq_refl)) as Li.
        unfold at_ at 1. destruct (nth_error (map Fin (twice_folded mphs)) i) eqn:EA; [|apply nth_error_None in EA; lia]. cbn [bind].
        unfold at_ at 1. unfold twice_folded in Li. rewrite map_length, app_length, map_length in Li.
        destruct (nth_error (_ ++ _) i) eqn:EB; [|apply nth_error_None in EB; rewrite app_length, map_length in EB; lia]. cbn [bind].
        destruct (IH (fun j Hj => Hi j (or_intror Hj))) as (c & Ec). rewrite Ec. cbn. eauto. }
      destruct (CC _ (fun i => AS _ i)) as (curve & ->). cbn [bind].
      assert (exists last, (if highlight then do t <- at_ (times ds) (argmax_r (times ds)); do hp <- t_to_phase (f_heap f) (ps_items (f_params f)) [t] n false; do a <- at_ hp 0; do b <- at_ (Y ++ Y) (argmax_r (times ds)); Ok (Some (if ext_ltb (Fin (1 / 2)) a then minus1 a else a, b)) else Ok None) = Ok last) as (last & ->).
      { destruct highlight; [|eauto]. destruct (argmax_latest _ NT) as (t & LT & _). unfold at_ at 1. rewrite LT. cbn [bind].
        destruct (PH [t] false) as (hp & HF & HT). rewrite HT. cbn [bind]. inversion HF as [|? ph ? ? Q1 Q2]; subst. cbn [map at_ nth_error bind].
        assert (argmax_r (times ds) < length (times ds))%nat by (apply nth_error_Some; congruence). unfold at_.
        destruct (nth_error (Y ++ Y) _) eqn:EY; [cbn; eauto|]. apply nth_error_None in EY. rewrite app_length in EY. lia. }
      cbn [bind]. rewrite RE.
      destruct (mtel_main (map Fin (twice_folded phs)) (Y ++ Y) (tabulate (uncertainty S) 0 ds ++ tabulate (uncertainty S) 0 ds) (tels ds ++ tels ds) telfmts []) as (fm' & ss & -> & _);
        unfold twice_folded; rewrite ?map_length, ?app_length, ?map_length, ?tabulate_len, ?tels_len by auto; auto; try lia; [now left|now apply suffice_twice|].
      cbn [bind]. eauto.
    Qed.
  End Ready.
End Panels.
