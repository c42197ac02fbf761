(** C76: when a plot is made, and an example. *)
From Coq Require Import Reals String ZArith Arith Bool Lia Lra Permutation List.
From Verif Require Import Py PyFloat PyFacts PyFloatFacts Params ParamsProofs ParamsSpec VectorProofs Kepler Basis BasisProofs BasisConv BasisThms BasisModel VConv RVModel RVModelProofs RvTerm DanbyAll ModelThms Likelihood LikeSpec LikeProofs LikeHist LikeBuild LikeAlign LikeMore ExLike Phase PhaseProofs Stats FastBin FastBinSpec FastBinProofs Timebin TelPlot TelPlotSpec TelPlotProofs TelPlotThms Panels PanelSpec PanelProofs PanelFit PanelThms.
Import ListNotations.
Open Scope R_scope.

Lemma dv_heap h h' d idx : (forall k, get_param h d k = get_param h' d k) -> dict_to_vector h d idx = dict_to_vector h' d idx.
Proof.
  intro H. unfold dict_to_vector. generalize (repeat zero_row (length (dkeys d) + n_missing d)). induction (dkeys d) as [|k ks IH]; intro v; [reflexivity|]. cbn [for_each].
  unfold dv_step at 1 3. rewrite H. destruct (dget idx k); [|cbn [bind]; apply IH]. destruct (get_param h' d k) as [p|]; [|reflexivity].
  destruct (Nat.ltb _ _); [|reflexivity]. destruct (p_vary p); [|reflexivity]. cbn [bind]. apply IH.
Qed.

Section Made.
  Variables (use_c : bool) (q : fitted) (ds : list dataset) (b : string) (names : list string) (E : nat -> elements).
  Hypothesis FO : fit_of q ds b names E.
  Let num := ps_num (q_params q).
  Let E1 n := els b (meaning (E n)).
  Hypothesis AR : exists v, dict_to_vector (q_heap q) (ps_items (q_params q)) (v_indices (q_vec q)) = Ok v.
  Hypothesis CO : complete q ds.

  Lemma heap_ext h : (exists t, h = (q_heap q ++ t)%list) -> forall k, get_param h (ps_items (q_params q)) k = get_param (q_heap q) (ps_items (q_params q)) k.
  Proof.
    intros [t ->] k. destruct FO as [_ OK _ _]. unfold get_param. destruct (dget (ps_items (q_params q)) k) as [l|] eqn:El; [|reflexivity].
    apply dget_in in El. apply (po_locs _ _ _ _ OK) in El. now apply nth_error_app1.
  Qed.
  Lemma linspace_some a c n : (0 < n)%nat -> linspace a c n <> [].
  Proof. destruct n as [|[|n]]; [lia|discriminate|]. intros _ Z. apply (f_equal (@length R)) in Z. unfold linspace in Z. rewrite map_length, seq_length in Z. discriminate. Qed.

  Lemma model_ok h v0 v t : (exists t0, h = (q_heap q ++ t0)%list) -> dict_to_vector h (ps_items (q_params q)) (v_indices (q_vec q)) = Ok v0 ->
    agree (marg_rows (q_likes q) v0) v0 v -> t <> [] -> exists vel, q_model use_c 29 q v t None = Ok vel /\ length vel = length t.
  Proof.
    intros HX DV AG NT. destruct CO as (DS & (dvdt & ED) & (curv & ECu) & _).
    destruct (model_synth use_c 29 q ds b names E FO h v0 HX DV dvdt curv ED ECu v AG) as (w & W1 & W2 & W3 & W4).
    destruct (rows_trend use_c 29 q ds b names E FO h v0 HX DV) as (_ & _ & I3 & I4).
    assert (exists vel, q_model use_c 29 q v t None = Ok vel) as (vel & HV).
    { unfold q_model. eapply call_succeeds; [exact W1| |].
      - exists (5 * num)%nat, (5 * num + 1)%nat. cbn [m_vector v_indices v_vector]. split; [exact I3|]. split; [exact W3|]. split; [exact I4|exact W4].
      - cbn [planets_of m_params]. intros z Hz. apply in_map_iff in Hz as (n & <- & Hn). apply in_seq in Hn. fold num in Hn. destruct n as [|n]; [lia|].
        rewrite (orbel_at_five w n (E1 (S n)) (W2 n ltac:(fold num; lia))). eexists. destruct (rv_drive_always_returns use_c t (orb (E1 (S n))) NT) as (x & Hx). eauto. }
    exists vel. split; auto. apply call_is_map in HV. subst vel. now rewrite map_length.
  Qed.

  Lemma made epoch xlim save : exists f, plot_init use_c 29 q epoch xlim save = Ok f.
  Proof.
    destruct AR as (v0 & DV). destruct FO as [_ OK ST HE]. unfold plot_init. destruct (fit_facts use_c 29 q ds b names E FO) as (HB & _ & _ & _ & _ & _ & BF & _).
    destruct (to_synth_main (q_heap q) (q_params q) b names false (fun n => meaning (E n)) E1 OK) as (h' & out & ET & _ & _ & _ & _ & _ & _ & SY & _ & _).
    { intros n Hn. now apply HE. } { intros n Hn. eapply els_ok; eauto. }
    destruct (synth_facts q ds b names E FO h' out ET) as (HX & _ & NO & _). fold num in NO.
    rewrite ET. cbn [bind]. rewrite (dv_heap h' (q_heap q)) by (intro k; apply (heap_ext h' HX)). rewrite DV. cbn [bind].
    assert (dict_to_vector h' (ps_items (q_params q)) (v_indices (q_vec q)) = Ok v0) as DV'.
    { rewrite <- DV. apply dv_heap. intro k. apply (heap_ext h' HX). }
    destruct CO as (NE & (dvdt & ED) & (curv & ECu) & HD).
    assert (forall l, In l (q_likes q) -> (exists e, rv_errorbars l v0 = Ok e) /\ exists r, snd (rv_residuals (q_fwd use_c 29 q) l v0) = Ok r) as HL.
    { intros l Hl. destruct (f2_at _ _ _ BF l Hl) as (k & d & K1 & K2 & (B1 & B2 & B3 & B4 & B5 & B6 & B7 & B8 & B9 & B10 & B11)).
      destruct (HD d (nth_error_In _ _ K1)) as (N1 & S1 & S2 & DN & (g & HG) & (j & HJ)). rewrite B5 in B7. rewrite B6 in B8.
      pose proof (lo_gidx _ _ _ B11) as GI. pose proof (lo_jidx _ _ _ B11) as JI. rewrite B5 in GI. rewrite B6 in JI.
      destruct (row_inst use_c 29 q ds b names E FO h' v0 HX DV' _ _ (inst_gamma _) B7 GI) as (p & bb & sc & P1 & P2 & P3).
      destruct (row_inst use_c 29 q ds b names E FO h' v0 HX DV' _ _ (inst_jit _) B8 JI) as (p' & bb' & sc' & P1' & P2' & P3').
      unfold value_at in HG, HJ. rewrite P1 in HG. rewrite P1' in HJ.
      assert (vget v0 (l_jidx l) = Ok j) as VJ by (unfold vget; rewrite P3'; cbn; now rewrite HJ).
      split; [unfold rv_errorbars; rewrite VJ; cbn; eauto|].
      destruct (model_ok h' v0 v0 (l_x l) HX DV' (agree_refl _ _)) as (m & M1 & M2); [rewrite B1; exact N1|].
      eapply (residuals_defined (q_fwd use_c 29 q) l v0 m); [exact M1|congruence|congruence|auto|exact P3|exact HG|exact VJ]. }
    assert (exists err, comp_errorbars (q_members use_c 29 q) v0 = Ok err) as (err & ->).
    { unfold q_members. assert (q_likes q <> []) as NL by (intro Z; rewrite Z in BF; inversion BF; subst; auto). destruct (q_likes q) as [|l ls]; [easy|]. cbn [map comp_errorbars rv_member mb_errorbars].
      destruct (proj1 (HL l (or_introl eq_refl))) as (e & ->). cbn [bind]. assert (forall l', In l' ls -> exists e', rv_errorbars l' v0 = Ok e') as HL' by (intros l' Hl'; apply (HL l'); now right).
      clear - HL'. revert e. induction ls as [|l ls IH]; intro e; [cbn; eauto|]. cbn [map for_each rv_member mb_errorbars]. destruct (HL' l (or_introl eq_refl)) as (e' & ->). cbn [bind]. apply IH.
      intros; apply HL'; now right. }
    cbn [bind].
    assert (exists v raw, comp_residuals (q_members use_c 29 q) v0 = (v, Ok raw)) as (v & raw & ER).
    { assert (forall ls acc v, incl ls (q_likes q) -> agree (marg_rows (q_likes q) v0) v0 v -> exists v' raw, comp_residuals_from acc (map (rv_member (q_fwd use_c 29 q)) ls) v = (v', Ok raw)) as Q.
      { induction ls as [|l ls IH]; intros acc v HI A; cbn [map comp_residuals_from rv_member mb_residuals]; [eauto|].
        destruct (resid_same use_c 29 q ds b names E FO v0 l v (HI l (or_introl eq_refl)) A) as [Q1 Q2].
        destruct (HL l (HI l (or_introl eq_refl))) as (_ & r & HR). rewrite HR in Q1. destruct (rv_residuals (q_fwd use_c 29 q) l v) as [v1 r1]. cbn [fst snd] in *. subst r1.
        apply IH; auto. intros x Hx. apply HI. now right. }
      unfold q_members. assert (q_likes q <> []) as NL by (intro Z; rewrite Z in BF; inversion BF; subst; auto). destruct (q_likes q) as [|l ls] eqn:EL; [easy|].
      rewrite <- EL in *. assert (In l (q_likes q)) as Hl by (rewrite EL; now left).
      destruct (Q (l :: ls) [] v0) as (v' & raw & HQ); [rewrite EL; apply incl_refl|apply agree_refl|]. cbn [map comp_residuals_from comp_residuals rv_member mb_residuals app] in HQ |- *.
      rewrite EL. cbn [map comp_residuals rv_member mb_residuals]. eauto. }
    rewrite ER. cbn [bind].
    assert (forall k x, non_orbital num k -> value_at (q_heap q) (q_params q) k = Some x -> par_value h' (ps_items out) k = Ok x) as PV.
    { intros k x Hk Hx. rewrite <- (NO k Hk) in Hx. unfold value_at in Hx. unfold par_value. destruct (get_param _ _ _); [|discriminate]. now rewrite Hx. }
    rewrite (PV _ _ (proj1 (non_orbital_trend num)) ED), (PV _ _ (proj2 (non_orbital_trend num)) ECu). cbn [bind].
    fold num.
    assert (exists periods, map_res (fun i => getpar h' (ps_items out) (S i) "per") (seq 0 num) = Ok periods) as (periods & ->).
    { assert (forall i, In i (seq 0 num) -> exists x, getpar h' (ps_items out) (S i) "per" = Ok x) as Q.
      { intros i Hi. apply in_seq in Hi. eexists. apply has_getpar. apply value_has. apply (SY (S i)); [fold num; lia|]. cbn. tauto. }
      induction (seq 0 num) as [|i r IH]; [cbn; eauto|]. cbn [map_res]. destruct (Q i (or_introl eq_refl)) as (x & ->). cbn [bind].
      destruct IH as (p & ->); [intros; apply Q; now right|]. cbn. eauto. }
    cbn [bind]. destruct (data_same use_c 29 q ds b names E FO) as [DX _]. rewrite DX.
    assert (times ds <> []) as NT.
    { destruct ds as [|d r]; [easy|]. destruct (HD d (or_introl eq_refl)) as (N1 & _). unfold times. cbn. intro Z. apply app_eq_nil in Z. tauto. }
    assert (exists mt, model_times (times ds) periods epoch xlim save = Ok mt /\ mt <> []) as (mt & -> & NM).
    { unfold model_times. destruct (times ds) as [|t ts]; [easy|]. eexists. split; [reflexivity|].
      assert (0 < (if save then 100 * 100 else 20 * 100))%nat by (destruct save; apply Nat.lt_0_succ || lia). destruct xlim as [[a c]|]; now apply linspace_some. }
    cbn [bind].
    destruct (raw_all use_c 29 q ds b names E FO v0 v raw ER) as (AG & _).
    destruct (model_ok h' v0 v mt HX DV' AG NM) as (om & -> & _). cbn [bind].
    destruct (model_ok h' v0 v (times ds) HX DV' AG NT) as (rm & -> & _). cbn [bind].
    destruct (shown_times _ _ _) as [[ep plt] mplt]. eauto.
  Qed.
End Made.

(** ** No trend, no plot *)
Lemma no_trend use_c fuel q ds b names E epoch xlim save f : fit_of q ds b names E ->
  ~ In "dvdt"%string (dkeys (ps_items (q_params q))) \/ ~ In "curv"%string (dkeys (ps_items (q_params q))) -> plot_init use_c fuel q epoch xlim save <> Ok f.
Proof.
  intros FO N H. destruct (init_ready use_c fuel q ds b names E FO epoch xlim save f H) as (S & d & (SO & _)).
  assert (forall k x, value_at (q_heap q) (q_params q) k = Some x -> In k (dkeys (ps_items (q_params q)))) as Q.
  { intros k x. unfold value_at, get_param. destruct (dget _ k) eqn:Z; [|discriminate]. intros _. now apply dget_key in Z. }
  destruct N as [N|N]; apply N; [exact (Q _ _ (sf_dvdt _ _ _ _ _ _ _ _ _ SO))|exact (Q _ _ (sf_curv _ _ _ _ _ _ _ _ _ SO))].
Qed.

(** ** An example: one planet, two instruments; without the last key, no curvature *)
Section Ex.
  Variable x : nat -> R.
  Hypothesis Dom : in_domain (mkEl (x 0%nat) (x 1%nat) (x 2%nat) (x 3%nat) (x 4%nat)).
  Definition xq_n (full : bool) : nat := if full then 11%nat else 10%nat.
  Definition xq_h (full : bool) : heap := map (fun i => mkParam (Some (x i)) (VBool (negb (Nat.eqb i 6))) None (Nat.eqb i 6)) (seq 0 (xq_n full)).
  Definition xq_ps (full : bool) : params :=
    mkParams (combine (exl_keys ++ if full then ["curv"%string] else [])%list (seq 0 (xq_n full))) (basis_init "per tp e w k" 1) 1 (split "per tp e w k") None.
  Definition xq (full : bool) : fitted :=
    match (do vec <- vector_init (xq_h full) (xq_ps full); do (h1, ps1, vec1, ls) <- build_likes (xq_h full) (xq_ps full) vec (exl_data x []); Ok (mkFit h1 ps1 vec1 2 ls)) with
    | Ok q => q | Err _ => mkFit [] (xq_ps full) (mkVector [] [] []) 0 []
    end.
  Definition xq_el (n : nat) : elements := mkEl (x 0%nat) (x 1%nat) (x 2%nat) (x 3%nat) (x 4%nat).
  Lemma xq_layout full : layout 1 "per tp e w k" ["per"; "tp"; "e"; "w"; "k"]%string (dkeys (ps_items (xq_ps full))).
  Proof.
    split.
    - cbn; tauto.
    - apply nodup_strings. destruct full; vm_compute; reflexivity.
    - intros n p Hn Hp. assert (n = 1%nat) as -> by lia. cbn in Hp. destruct full; decompose [or] Hp; try contradiction; subst; vm_compute; tauto.
    - intros n p Hn Hp Hk. assert (n = 1%nat) as -> by lia. cbn in Hp.
      destruct full; decompose [or] Hp; try contradiction; subst; try (cbn; tauto); exfalso; vm_compute in Hk; intuition discriminate.
  Qed.
  Lemma xq_fit full : fit_of (xq full) (exl_data x []) "per tp e w k" ["per"; "tp"; "e"; "w"; "k"]%string xq_el.
  Proof.
    assert (exists vec h1 ps1 vec1 ls, vector_init (xq_h full) (xq_ps full) = Ok vec /\ build_likes (xq_h full) (xq_ps full) vec (exl_data x []) = Ok (h1, ps1, vec1, ls) /\
      h1 = xq_h full /\ ps1 = xq_ps full) as (vec & h1 & ps1 & vec1 & ls & E1 & E2 & E3 & E4).
    { destruct full; do 5 eexists; (split; [vm_compute; reflexivity|]); (split; [vm_compute; reflexivity|]); split; vm_compute; reflexivity. }
    unfold xq. rewrite E1. cbn [bind]. rewrite E2. cbn [bind]. subst h1 ps1.
    split; cbn [q_heap q_params q_vec q_likes].
    - exists (xq_h full), (xq_ps full), vec, (xq_h full), vec1. split; [apply xq_layout|]. split; [reflexivity|]. split; auto.
    - split; [cbn; tauto|reflexivity|reflexivity| | |].
      + intros k l. destruct full; cbn; intro Hk; decompose [or] Hk; try contradiction; match goal with H : (_, _) = (_, _) |- _ => injection H as <- <- end; lia.
      + apply (xq_layout full).
      + apply (xq_layout full).
    - intros n p Hn Hp Hk. exact (l_only _ _ _ _ (xq_layout full) n p Hn Hp Hk).
    - intros n Hn. assert (n = 1%nat) as -> by (cbn in Hn; lia). split; [exact Dom|].
      intros p Hp. cbn in Hp. destruct full; decompose [or] Hp; try contradiction; subst; reflexivity.
  Qed.
  Lemma xq_array full : exists v, dict_to_vector (q_heap (xq full)) (ps_items (q_params (xq full))) (v_indices (q_vec (xq full))) = Ok v.
  Proof. destruct full; eexists; vm_compute; reflexivity. Qed.
  Lemma xq_complete : complete (xq true) (exl_data x []).
  Proof.
    split; [discriminate|]. split; [eexists; vm_compute; reflexivity|]. split; [eexists; vm_compute; reflexivity|].
    intros d [<-|[<-|[]]]; (split; [discriminate|]); (split; [reflexivity|]); (split; [reflexivity|]); (split; [reflexivity|]); split; eexists; vm_compute; reflexivity.
  Qed.
End Ex.
Lemma exl_dom : in_domain (xq_el exl_x 1).
Proof. unfold in_domain, xq_el. cbn. lra. Qed.

(** ** The times of the curve *)
Lemma extremes l : l <> [] -> least l (vmin l) /\ greatest l (vmax l).
Proof.
  intro N. assert (0 < length l)%nat as HL by (destruct l; [easy|cbn; lia]). pose proof (StatsProofs.sort_length l) as SL.
  assert (In (vmin l) l) as I1 by (eapply Permutation_in; [apply StatsProofs.sort_perm|]; apply nth_In; lia).
  assert (In (vmax l) l) as I2 by (eapply Permutation_in; [apply StatsProofs.sort_perm|]; apply nth_In; lia).
  assert (forall x, In x l -> vmin l <= x <= vmax l) as B.
  { intros x Hx. apply (Permutation_in x (Permutation_sym (StatsProofs.sort_perm l))) in Hx. apply StatsProofs.In_nth_R in Hx as (i & Hi & <-). unfold vmin, vmax.
    split; apply StatsProofs.ordered_nth; try apply StatsProofs.sort_ordered; lia. }
  split; split; auto; intros x Hx; apply B; auto.
Qed.
Lemma linspace_grid a c n : grid a c n (linspace a c n).
Proof.
  destruct n as [|[|n]]; [split; [reflexivity|intros [|i] t; discriminate]|split; [reflexivity|]|].
  - intros [|i] t; cbn; [|destruct i; discriminate]. intro Z. injection Z as <-. lra.
  - split; [unfold linspace; now rewrite map_length, seq_length|]. intros i t H. unfold linspace in H. rewrite nth_error_map in H.
    destruct (nth_error (seq 0 (S (S n))) i) as [j|] eqn:Ej; [|discriminate]. cbn [option_map] in H. injection H as <-.
    assert (j = i) as ->. { assert (i < S (S n))%nat by (rewrite <- (seq_length (S (S n)) 0); apply nth_error_Some; congruence).
      rewrite (nth_error_nth' _ 0%nat), seq_nth in Ej by (rewrite ?seq_length; lia). injection Ej as <-. reflexivity. }
    replace (S (S n) - 1)%nat with (S n) by lia. change (match n with 0%nat => 1 | S _ => INR n + 1 end) with (INR (S n)). assert (INR (S n) <> 0) as NZ by (apply not_0_INR; lia). revert NZ. generalize (INR (S n)). intros r NZ. field. exact NZ.
Qed.

Lemma curve_times use_c fuel q ds b names E epoch xlim save f : fit_of q ds b names E -> plot_init use_c fuel q epoch xlim save = Ok f ->
  exists first last P, least (times ds) first /\ greatest (times ds) last /\ longest (ps_num (q_params q)) E (last - first) P /\
    let n := if save then (100 * 100)%nat else (20 * 100)%nat in
    match xlim with
    | None => let m := (last - first) / 20 in grid (first - m) (last + m + P) n (f_mt f)
    | Some (a, c) => let m := (c - a) / 20 in grid (a + epoch - m) (c + epoch + m + P) n (f_mt f)
    end.
Proof.
  intros FO H. unfold plot_init in H. destruct (data_same use_c fuel q ds b names E FO) as [DX _]. rewrite DX in H.
  destruct (to_synth _ _ _ _ _) as [[h sp]|] eqn:ET; [|discriminate]. cbn [bind] in H.
  destruct (dict_to_vector _ _ _) as [v0|] eqn:EV; [|discriminate]. cbn [bind] in H.
  destruct (comp_errorbars _ _) as [err|] eqn:EE; [|discriminate]. cbn [bind] in H.
  destruct (comp_residuals _ _) as [v [raw|]] eqn:ER; [|discriminate]. cbn [bind] in H.
  destruct (par_value h (ps_items sp) "dvdt") as [dvdt|] eqn:ED; [|discriminate]. cbn [bind] in H.
  destruct (par_value h (ps_items sp) "curv") as [curv|] eqn:EC; [|discriminate]. cbn [bind] in H.
  destruct (map_res _ _) as [periods|] eqn:EP; [|discriminate]. cbn [bind] in H.
  destruct (model_times _ _ _ _ _) as [mt|] eqn:EM; [|discriminate]. cbn [bind] in H.
  destruct (q_model _ _ _ _ mt None) as [om|] eqn:E5; [|discriminate]. cbn [bind] in H.
  destruct (q_model _ _ _ _ (times ds) None) as [rvmod|] eqn:E6; [|discriminate]. cbn [bind] in H.
  destruct (shown_times _ _ _) as [[ep plt] mplt] eqn:E7. injection H as <-. cbn [f_mt].
  destruct (synth_facts q ds b names E FO h sp ET) as (HX & SY & NO & _).
  assert (times ds <> []) as NT by (intro Z; rewrite Z in EM; discriminate).
  destruct (extremes _ NT) as [LE GR]. exists (vmin (times ds)), (vmax (times ds)).
  set (num := ps_num (q_params q)) in *.
  assert (periods = map (fun n => el_per (E n)) (seq 1 num)) as PE.
  { assert (forall i, In i (seq 0 num) -> getpar h (ps_items sp) (S i) "per" = Ok (el_per (E (S i)))) as Q.
    { intros i Hi. apply in_seq in Hi. destruct (SY (S i)) as [RC HO]; [lia|]. rewrite <- (proj1 (rec_shape _ _ _ RC)). apply has_getpar, value_has. apply (HO "per"%string). cbn. tauto. }
    rewrite <- seq_shift, map_map. clear EM. revert periods EP. clear -Q. induction (seq 0 num) as [|i r IH]; intros periods EP; cbn [map_res map] in *; [congruence|].
    rewrite (Q i (or_introl eq_refl)) in EP. cbn [bind] in EP. destruct (map_res _ r) as [ps|]; [|discriminate]. cbn [bind] in EP. injection EP as <-.
    f_equal. apply IH; auto. intros; apply Q; now right. }
  unfold model_times in EM. destruct (times ds) as [|t0 ts] eqn:Et; [easy|]. rewrite <- Et in *.
  exists (match periods with [] => vmax (times ds) - vmin (times ds) | _ :: _ => vmax periods end). split; auto. split; auto. split.
  - rewrite PE. destruct num as [|k]; [left; auto|]. right. change (seq 1 (S k)) with (1%nat :: seq 2 k). cbn [map]. apply extremes. discriminate.
  - cbv zeta. destruct xlim as [[a c]|]; injection EM as <-;
      [replace (5 / 100 * (c - a)) with ((c - a) / 20) by lra|replace (5 / 100 * (vmax (times ds) - vmin (times ds))) with ((vmax (times ds) - vmin (times ds)) / 20) by lra]; apply linspace_grid.
Qed.

(** ** The statements of PropertiesPanel.v *)
Lemma panels_main use_c fuel argsort q ds b names E epoch xlim save f : fit_of q ds b names E -> plot_init use_c fuel q epoch xlim save = Ok f ->
  exists S, let num := ps_num (q_params q) in
    solution_of use_c fuel q ds names E (f_rows f) (times ds ++ f_mt f) S /\
    (forall fm rms hl fm' p, plot_timeseries use_c fuel q f fm rms hl = Ok (fm', p) ->
       shows ds (f_mt f) S epoch hl (velocity S) (fun t => planets S (all_planets num) t + trend S t) p) /\
    (forall fm hl fm' p, plot_residuals q f fm hl = Ok (fm', p) -> shows ds (f_mt f) S epoch hl (residual S num) (fun _ => 0) p) /\
    (forall fm nobin hl n fm' p bins, (1 <= n <= num)%nat -> plot_phasefold use_c fuel argsort q f fm nobin hl n = Ok (fm', p, bins) ->
       shows_phase argsort ds (f_mt f) S num n names (E n) nobin hl p bins) /\
    (forall fm rms hl fm' p s, formats_wf fm -> plot_timeseries use_c fuel q f fm rms hl = Ok (fm', p) -> In s (g_series p) ->
       exists name note r, dget (s_kw s) "label" = Some (name ++ note)%string /\ legend_name fm (s_tel s) name /\ rms_note note r /\
         (rms = false -> r = 0) /\
         (rms = true -> exists k d, nth_error ds k = Some d /\ strip_us (ds_suffix d) = s_tel s /\ r = spread (per_row (residual S num k) 0 (ds_t d) (ds_y d) (ds_err d)))).
Proof.
  intros FO H. destruct (init_ready use_c fuel q ds b names E FO epoch xlim save f H) as (S & d & RD). exists S. cbv zeta. split; [apply RD|].
  split; [intros; eapply timeseries_shows; eauto|]. split; [intros; eapply residuals_shows; eauto|]. split; [intros; eapply phasefold_shows; eauto|].
  intros; eapply timeseries_legend; eauto.
Qed.
Lemma panels_ok use_c fuel argsort q ds b names E epoch xlim save f : fit_of q ds b names E -> plot_init use_c fuel q epoch xlim save = Ok f ->
  (forall l i, In i (argsort l) -> (i < length l)%nat) -> forall fm, formats_wf fm -> colours_suffice fm (tels ds) ->
  (forall rms hl, exists fm' p, plot_timeseries use_c fuel q f fm rms hl = Ok (fm', p)) /\
  (forall hl, exists fm' p, plot_residuals q f fm hl = Ok (fm', p)) /\
  (forall nobin hl n, (1 <= n <= ps_num (q_params q))%nat -> exists fm' p bins, plot_phasefold use_c fuel argsort q f fm nobin hl n = Ok (fm', p, bins)).
Proof.
  intros FO H AS fm W CS. destruct (init_ready use_c fuel q ds b names E FO epoch xlim save f H) as (S & d & RD).
  split; [intros; eapply timeseries_ok; eauto|]. split; [intros; eapply residuals_ok; eauto|]. intros; eapply phasefold_ok; eauto.
Qed.

Lemma xq_made epoch xlim save : exists f, plot_init true 29 (xq exl_x true) epoch xlim save = Ok f.
Proof.
  apply (made true _ _ _ _ _ (xq_fit exl_x exl_dom true) (xq_array exl_x true) (xq_complete exl_x)).
Qed.
Lemma xq_colours : formats_wf [] /\ colours_suffice [] (tels (exl_data exl_x [])) /\ ps_num (q_params (xq exl_x true)) = 1%nat.
Proof.
  split; [intros t f; discriminate|]. split; [|vm_compute; reflexivity]. exists ["a"; "b"]%string. split; [apply nodup_strings; reflexivity|].
  split; [|cbn; lia]. intros t Ht _. change (tels (exl_data exl_x [])) with ["a"; "a"; "b"]%string in Ht. cbn in *. tauto.
Qed.
Lemma xq_longest : least [12; 15; 17] 12 /\ greatest [12; 15; 17] 17 /\ longest 1 (xq_el exl_x) 5 10.
Proof.
  split; [split; [now left|]; intros y [<-|[<-|[<-|[]]]]; lra|]. split; [split; [cbn; tauto|]; intros y [<-|[<-|[<-|[]]]]; lra|].
  right. split; [now left|]. intros y [<-|[]]. unfold xq_el. cbn. lra.
Qed.
Lemma xq_untrended : fit_of (xq exl_x false) (exl_data exl_x []) "per tp e w k" ["per"; "tp"; "e"; "w"; "k"]%string (xq_el exl_x) /\
  ~ In "curv"%string (dkeys (ps_items (q_params (xq exl_x false)))) /\
  exists rs, Forall2 (fun l r => snd (rv_residuals (q_fwd true 29 (xq exl_x false)) l (v_vector (q_vec (xq exl_x false)))) = Ok r) (q_likes (xq exl_x false)) rs.
Proof.
  split; [exact (xq_fit exl_x exl_dom false)|]. split; [vm_compute; intuition discriminate|].
  destruct (exl_members exl_x) as (vec & h1 & ps1 & vec1 & ls & c & rs & es & xs & E1 & E2 & _ & _ & F & _); [cbn; lra|].
  exists rs. assert (xq exl_x false = mkFit h1 ps1 vec1 2 ls) as ->; [|exact F].
  unfold xq. change (xq_h exl_x false) with (exl_h exl_x). change (xq_ps false) with exl_ps. rewrite E1. cbn [bind]. rewrite E2. reflexivity.
Qed.
