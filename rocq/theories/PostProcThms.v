(** C65: the theorems. *)
From Coq Require Import ZArith Reals String Arith Bool Lia Lra List.
From Flocq Require Import Core.
From Verif Require Import Py PyFloat PyFacts PyFloatFacts Params ParamsProofs ParamsSpec VectorProofs Basis BasisNum BasisProofs BasisConv BasisModel BasisThms
  Likelihood LikeSpec LikeProofs LikeHist Fitting FittingProofs PickleProofs Format FormatProofs Stats StatsProofs PostProc PostProcSpec PostProcProofs.
Import ListNotations.
Open Scope R_scope.
Open Scope string_scope.

Lemma els_get b names vals p : In (b, names) FIT_BASES -> In p FIVE -> synth_of b (fun q => Ok (vals q)) = Ok (el_tuple (els b vals)) /\ el_get p (el_tuple (els b vals)) = meaning (els b vals) p.
Proof. intros HF Hp. split; [eapply els_ok; eauto|]. destruct (els b vals). cbn in Hp. intuition (subst p; reflexivity). Qed.

Section Main.
  Variables (dexp : R -> Z) (ends0 : R -> bool) (fuel : nat).
  Variables (lp : list row -> list row * res ext) (stats : list row -> list row * res unit).
  Variables (ps : params) (idx : dict nat) (optimiser : list (option R) -> opt) (chains : table) (s s' : fitst) (out : dict (R * R * R)).
  Let d := ps_items ps.
  Hypothesis E : postprocess dexp ends0 fuel lp stats ps idx optimiser chains s = (s', Ok out).

  Lemma post_inv : exists t1 cols v1 h1 s2 v3 y v4 h5 sp,
    fill_fixed d idx (f_rows s) chains = Ok t1 /\
    to_synth_table (b_name (ps_basis ps)) (b_num (ps_basis ps)) t1 = Ok cols /\
    set_medians d idx (t_cols chains) (f_rows s) = Ok v1 /\
    vector_to_dict d idx v1 (f_heap s) = Ok h1 /\
    maxlike_fitting lp d idx optimiser false (mkFit v1 (f_cp s) (f_cl s) h1) = (s2, Ok tt) /\
    lp (f_rows s2) = (v3, Ok y) /\ stats v3 = (v4, Ok tt) /\
    vector_to_dict d idx v4 (f_heap s2) = Ok h5 /\
    to_synth h5 (ps_basis ps) ps true None = Ok (f_heap s', sp) /\
    f_rows s' = v4 /\ summary dexp ends0 fuel cols (f_heap s') (ps_items sp) = Ok out.
  Proof.
    unfold postprocess in E. fold d in E. destruct (fill_fixed d idx (f_rows s) chains) as [t1|] eqn:E1; [|discriminate]. cbn [bind] in E.
    destruct (to_synth_table _ _ t1) as [cols|] eqn:E2; [|discriminate]. cbn [bind] in E.
    destruct (set_medians _ _ _ _) as [v1|] eqn:E3; [|discriminate]. cbn [bind] in E.
    destruct (vector_to_dict d idx v1 (f_heap s)) as [h1|] eqn:E4; [|discriminate]. cbn [bind] in E.
    destruct (maxlike_fitting _ _ _ _ _ _) as [s2 r2] eqn:E5. destruct r2 as [[]|]; [|discriminate].
    destruct (lp (f_rows s2)) as [v3 r3] eqn:E6. destruct r3 as [y|]; [|discriminate].
    destruct (stats v3) as [v4 r4] eqn:E7. destruct r4 as [[]|]; [|discriminate].
    destruct (vector_to_dict d idx v4 (f_heap s2)) as [h5|] eqn:E8; [|discriminate].
    destruct (to_synth h5 (ps_basis ps) ps true None) as [[h6 sp]|] eqn:E9; [|discriminate]. injection E as <- E10.
    exists t1, cols, v1, h1, s2, v3, y, v4, h5, sp. cbn. auto 20.
  Qed.

  Variables (b : string) (names : list string) (val : nat -> string -> R).
  Hypothesis OK : ParamsSpec.params_ok (f_heap s) ps b names.
  Hypothesis OB : objects_ok (f_heap s) d.
  Hypothesis FV : forall n p, (1 <= n <= ps_num ps)%nat -> In p names -> value_in idx (f_rows s') (key p n) (val n p).

  Theorem post_main :
    (forall k, In k (dkeys d) -> ~ element_key (ps_num ps) k ->
       exists col best o, samples_of d idx (f_rows s) chains k col /\ value_in idx (f_rows s') k best /\
         reported_for dexp ends0 fuel col best o /\ dget out k = Some o) /\
    (forall n p, (1 <= n <= ps_num ps)%nat -> In p FIVE ->
       exists col o, length col = t_len chains /\
         (forall i, (i < t_len chains)%nat -> exists vals,
            (forall q, In q names -> exists c, samples_of d idx (f_rows s) chains (key q n) c /\ vals q = nth i c 0) /\
            nth i col 0 = meaning (els b vals) p) /\
         reported_for dexp ends0 fuel col (meaning (els b (val n)) p) o /\ dget out (key p n) = Some o) /\
    (forall k, In k (dkeys out) <-> In k (dkeys d) \/ element_key (ps_num ps) k).
  Proof.
    destruct post_inv as (t1 & cols & v1 & h1 & s2 & v3 & y & v4 & h5 & sp & E1 & E2 & E3 & E4 & E5 & E6 & E7 & E8 & E9 & E10 & E11).
    assert (length h5 = length (f_heap s)) as L5.
    { apply vd_len in E8. apply vd_len in E4. apply fit_heap_len in E5. cbn in E5. congruence. }
    assert (objects_ok (f_heap s2) d) as OB2.
    { eapply objects_len; [|exact OB]. apply vd_len in E8. congruence. }
    destruct (vd_ok _ _ _ _ _ OB2 E8) as [_ V5].
    assert (forall k x, In k (dkeys d) -> value_in idx (f_rows s') k x <-> value_at h5 ps k = Some x) as VA.
    { intros k x Hk. unfold value_in, value_at. fold d. rewrite E10.
      destruct (for_each_inv _ _ _ _ E1 k Hk) as (a & a' & Ea). unfold fill_step, dget_res in Ea. destruct (dget idx k) as [i|] eqn:Ei; [|discriminate].
      destruct (V5 k i Hk Ei) as (r & p & R1 & R2 & R3). rewrite R2. split.
      - intros (i' & r' & A & B & C). congruence.
      - intro Q. exists i, r. repeat split; congruence. }
    assert (ParamsSpec.params_ok h5 ps b names) as OK5 by (destruct OK; constructor; auto; intros; rewrite L5; eauto).
    assert (forall n, (1 <= n <= ps_num ps)%nat -> holds h5 ps names n (val n)) as HV.
    { intros n Hn p Hp. apply VA; [now apply (po_has _ _ _ _ OK)|auto]. }
    destruct (to_synth_keeps _ _ _ _ val _ _ OK5 HV E9) as [K1 K2].
    destruct (summary_loop dexp ends0 fuel _ _ _ _ _ _ E11) as [S1 S2].
    assert (forall k, In k (dkeys out) <-> In k (dkeys (ps_items sp))) as KO.
    { intro k. split; intro H.
      - destruct (in_dec string_dec k (dkeys (ps_items sp))) as [|N]; [auto|]. apply S2 in N. cbn in N. apply dget_some_key in H as [? ?]. congruence.
      - destruct (S1 k H) as (? & ? & ? & ? & _ & _ & _ & _ & Q). eapply dget_key; eauto. }
    pose proof (po_name _ _ _ _ OK) as BN. pose proof (po_num _ _ _ _ OK) as NN. rewrite BN, NN in E2.
    destruct (synth_loop b t1 (seq 1 (ps_num ps)) (seq_NoDup _ _) _ _ E2) as [C1 C2].
    assert (t_len t1 = t_len chains) as LT by (destruct (fill_loop d idx _ _ (incl_refl _) _ _ E1); auto).
    split; [|split].
    - intros k Hk He. destruct (K1 k He) as [Q1 Q2]. destruct (S1 k) as (p & best & col & o & G1 & G2 & G3 & G4 & G5); [now apply Q1|].
      exists col, best, o. split; [|split; [|auto]].
      + rewrite <- (fill_samples d idx _ _ _ _ _ E1). rewrite <- G3. symmetry. apply C2. intros n q Hn Hq ->. apply He. exists q, n. apply in_seq in Hn. repeat split; auto; lia.
      + apply VA; [exact Hk|]. rewrite <- Q2. unfold value_at. now rewrite G1.
    - intros n p Hn Hp. destruct (K2 n p Hn Hp) as [Q1 Q2]. destruct (S1 _ Q1) as (q & best & col & o & G1 & G2 & G3 & G4 & G5).
      destruct (C1 n p) as (col' & D1 & D2 & D3); [apply in_seq; lia|exact Hp|]. assert (col' = col) by congruence. subst col'.
      exists col, o. split; [congruence|]. split.
      + intros i Hi. destruct (D3 i) as (el & F1 & F2); [lia|].
        set (vals := fun q => match entry t1 i n q with Ok x => x | Err _ => 0 end). exists vals.
        assert (forall q, In q names -> exists c, samples_of d idx (f_rows s) chains (key q n) c /\ vals q = nth i c 0 /\ entry t1 i n q = Ok (vals q)) as HC.
        { intros q' Hq'. assert (In (key q' n) (dkeys d)) as Hd by now apply (po_has _ _ _ _ OK).
          assert (exists c, dget (t_cols t1) (key q' n) = Some c) as [c Hc].
          { destruct (dget (t_cols t1) (key q' n)) eqn:Q; [eauto|]. exfalso.
            assert (forall m, In m names -> entry t1 i n q' = Err (KeyError (key q' n))) as Er by (intros; unfold entry, dget_res; now rewrite Q).
            specialize (Er q' Hq'). assert (exists e, synth_of b (entry t1 i n) = Err e) as [e Ee]; [|congruence].
            clear - Er Hq' OK. pose proof (po_fit _ _ _ _ OK) as HF. clear OK.
            fit_cases HF; unfold synth_of; eval_strings; cbn in Hq';
              repeat (destruct Hq' as [<-|Hq']; [repeat (rewrite ?Er; cbn [bind]; try (eexists; reflexivity); match goal with |- context [bind ?m _] => destruct m; cbn [bind]; [|eexists; reflexivity] end)|]); try easy. }
          exists c. split; [now apply (fill_samples d idx _ _ _ _ _ E1)|]. unfold vals, entry, dget_res. rewrite Hc. cbn. auto. }
        split; [intros q' Hq'; destruct (HC q' Hq') as (c & A & B & _); eauto|].
        rewrite F2. destruct (els_get b names vals p) as [Y1 Y2]; [apply OK|exact Hp|].
        assert (synth_of b (entry t1 i n) = synth_of b (fun q => Ok (vals q))) as Z.
        { eapply synth_of_names; [apply OK|]. intros q' Hq'. destruct (HC q' Hq') as (_ & _ & _ & X). exact X. }
        rewrite <- Y2. congruence.
      + split; [|exact G5]. unfold value_at in Q2. rewrite G1 in Q2. congruence.
    - intro k. rewrite KO. destruct (planet_or_not (ps_num ps) k) as [(n & p & Hn & Hp & ->)|Hno].
      + destruct (in_dec string_dec p FIVE) as [H5|H5].
        * split; [intros _; right; exists p, n; auto|]. intros _. now apply K2.
        * assert (~ element_key (ps_num ps) (key p n)) as He.
          { intros (p' & n' & A & B & C). apply key_inj in C; try (apply pnames_no_digit; auto; now apply synth_pnames). destruct C as [-> _]. contradiction. }
          rewrite (proj1 (K1 _ He)). fold d. tauto.
      + assert (~ element_key (ps_num ps) k) as He.
        { intros (p' & n' & A & B & ->). apply (Hno n' p'); auto; try lia. now apply synth_pnames. }
        rewrite (proj1 (K1 _ He)). fold d. tauto.
  Qed.
End Main.

(** ** quantiles *)
Lemma floor_nat h n : 0 <= h <= INR n -> let i := Z.to_nat (Zfloor h) in (i <= n)%nat /\ INR i <= h < INR i + 1.
Proof.
  intros [H0 H1] i. assert (0 <= Zfloor h)%Z as Z0 by (apply Zfloor_lub; exact H0).
  assert (INR i = IZR (Zfloor h)) as EI by (unfold i; now rewrite INR_IZR_INZ, Z2Nat.id).
  pose proof (Zfloor_lb h). pose proof (Zfloor_ub h). rewrite EI. split; [|lra].
  apply INR_le. rewrite EI. lra.
Qed.
Theorem quantile_spec q l : l <> [] -> 0 <= q <= 1 ->
  let h := INR (length l - 1) * q in
  exists i lo, (i < length l)%nat /\ INR i <= h < INR i + 1 /\ is_rank l i lo /\
    ((i + 1 < length l)%nat -> exists hi, is_rank l (i + 1) hi /\ lo <= hi /\ quantile q l = lo + (h - INR i) * (hi - lo)) /\
    (i + 1 = length l -> quantile q l = lo)%nat.
Proof.
  intros NE [Q0 Q1] h. assert (0 < length l)%nat as LP by (destruct l; [easy|cbn; lia]).
  assert (0 <= INR (length l - 1)) as P by apply pos_INR.
  assert (0 <= h <= INR (length l - 1)) as Hh by (unfold h; split; [now apply Rmult_le_pos|nra]).
  destruct (floor_nat h (length l - 1) Hh) as [A B]. set (i := Z.to_nat (Zfloor h)) in *.
  exists i, (nth i (sort l) 0). split; [lia|]. split; [exact B|]. split; [apply nth_rank; lia|]. split.
  - intro Hi. exists (nth (S i) (sort l) 0). replace (i + 1)%nat with (S i) by lia. split; [apply nth_rank; lia|].
    split; [apply ordered_nth; [apply sort_ordered|lia|rewrite sort_length; lia]|]. unfold quantile. fold h. fold i. reflexivity.
  - intro Hi. unfold quantile. fold h. fold i. assert (INR i = INR (length l - 1)) as EQ by (f_equal; lia). assert (h - INR i = 0) as Q by lra. rewrite Q. lra.
Qed.
Lemma quantile_between q l : l <> [] -> 0 <= q <= 1 -> vmin l <= quantile q l <= vmax l.
Proof.
  intros NE Hq. pose proof (quantile_spec q l NE Hq) as Q. cbv zeta in Q. destruct Q as (i & lo & Hi & Hh & R1 & R2 & R3).
  assert (forall j v, is_rank l j v -> (j < length l)%nat -> vmin l <= v <= vmax l) as HB.
  { intros j v HR Hj. rewrite (is_rank_unique _ _ _ _ HR (nth_rank l j Hj)). unfold vmin, vmax. split; apply ordered_nth; try apply sort_ordered; rewrite ?sort_length; lia. }
  destruct (Nat.eq_dec (i + 1) (length l)) as [He|He].
  - rewrite (R3 He). eauto.
  - destruct R2 as (hi & R4 & R5 & ->); [lia|]. destruct (HB i lo R1 Hi). destruct (HB (i + 1)%nat hi R4) as [? ?]; [lia|].
    split; [nra|]. assert ((INR (length l - 1) * q - INR i) * (hi - lo) <= 1 * (hi - lo)) by (apply Rmult_le_compat_r; lra). lra.
Qed.
Lemma is_rank_in l k v : is_rank l k v -> In v l.
Proof. intros [H _]. exact H. Qed.
Lemma quantile_const q x n : (0 < n)%nat -> 0 <= q <= 1 -> quantile q (repeat x n) = x.
Proof.
  intros Hn Hq. assert (repeat x n <> []) as NE by (destruct n; [lia|discriminate]).
  destruct (quantile_spec q (repeat x n) NE Hq) as (i & lo & Hi & Hh & R1 & R2 & R3).
  apply is_rank_in, repeat_spec in R1. subst lo. destruct (Nat.eq_dec (i + 1) (length (repeat x n))) as [He|He]; [auto|].
  destruct R2 as (hi & R4 & _ & ->); [lia|]. apply is_rank_in, repeat_spec in R4. subst. lra.
Qed.
Lemma quantile_half l : l <> [] -> quantile (1 / 2) l = median l.
Proof.
  intro NE. assert (0 < length l)%nat as LP by (destruct l; [easy|cbn; lia]). set (n := length l) in *.
  unfold quantile, median. fold n.
  assert (forall h i, INR i <= h < INR i + 1 -> Z.to_nat (Zfloor h) = i) as F.
  { intros h i Hh. rewrite (Zfloor_imp (Z.of_nat i)); [apply Nat2Z.id|]. rewrite plus_IZR, <- !INR_IZR_INZ. exact Hh. }
  destruct (Nat.even n) eqn:Ev.
  - apply Nat.even_spec in Ev as [m Em]. assert (0 < m)%nat by lia.
    replace (n / 2)%nat with m by (rewrite Em, Nat.mul_comm; symmetry; apply Nat.div_mul; lia).
    assert (INR (n - 1) * (1 / 2) = INR (m - 1) + 1 / 2) as Hh.
    { rewrite Em. replace (2 * m - 1)%nat with (2 * (m - 1) + 1)%nat by lia. rewrite plus_INR, mult_INR. cbn. lra. }
    rewrite Hh. rewrite (F _ (m - 1)%nat) by lra. replace (S (m - 1)) with m by lia. lra.
  - assert (Nat.odd n = true) as Od by (unfold Nat.odd; now rewrite Ev). apply Nat.odd_spec in Od as [m Em].
    replace (n / 2)%nat with m by (rewrite Em; symmetry; rewrite Nat.mul_comm; now rewrite Nat.div_add_l, Nat.add_0_r by lia).
    assert (INR (n - 1) * (1 / 2) = INR m) as Hh. { rewrite Em. replace (2 * m + 1 - 1)%nat with (2 * m)%nat by lia. rewrite mult_INR. cbn. lra. }
    rewrite Hh. rewrite (F _ m) by lra. lra.
Qed.

(** ** the fit *)
Lemma medians_shape d idx cols : forall v v1, set_medians d idx cols v = Ok v1 -> same_shape v v1.
Proof.
  unfold set_medians. induction cols as [|[k col] cols IH]; intros v v1 H; cbn [for_each] in H; [injection H as <-; apply agree_refl|].
  unfold median_step in H at 1. cbn [fst snd] in H. destruct (dmem d k); [|cbn in H; eauto]. unfold dget_res in H. destruct (dget idx k) as [i|]; [|discriminate]. cbn [bind] in H.
  destruct (nth_error v i) as [r|] eqn:Er; [|discriminate]. cbn [bind] in H. apply IH in H. eapply agree_trans; [|exact H]. split; [now rewrite length_setval|].
  intros j a b Ha Hb. destruct (Nat.eq_dec i j) as [->|Hij].
  - rewrite (nth_setval_same _ _ _ _ Er) in Hb. injection Hb as <-. replace a with r by congruence. cbn. auto.
  - rewrite nth_setval_other in Hb by exact Hij. replace b with a by congruence. auto.
Qed.

Lemma fit_shape lp G v0 (LF : frame_ok G v0 lp) (LB : blind_to G v0 lp) (GF : forall i, G i -> ~ is_free v0 i) d idx optimiser cp cl h s' :
  cache_fresh cl v0 -> maxlike_fitting lp d idx optimiser false (mkFit v0 cp cl h) = (s', Ok tt) -> same_shape v0 (f_rows s').
Proof.
  intros C E. unfold maxlike_fitting, show in E. cbn [f_rows f_cp f_cl f_heap] in E. destruct (get_vary_params cp v0) as [cp' [x0|]]; [|discriminate].
  destruct (minimise lp (optimiser x0) (v0, cl)) as [[v cl'] [rep|]] eqn:E1; [|discriminate].
  destruct (vector_to_dict d idx v h); [|discriminate]. injection E as <-. cbn.
  destruct (minimise_last lp G v0 LF LB GF (optimiser x0) _ _ _ _ (agree_refl _ _) C E1) as [A _]. eapply same_shape_of. exact A.
Qed.

Section Fit.
  Variables (dexp : R -> Z) (ends0 : R -> bool) (fuel : nat).
  Variables (lp : list row -> list row * res ext) (stats : list row -> list row * res unit).
  Variables (ps : params) (idx : dict nat) (optimiser : list (option R) -> opt) (chains : table) (s s' : fitst) (out : dict (R * R * R)).
  Let d := ps_items ps.
  Hypothesis E : postprocess dexp ends0 fuel lp stats ps idx optimiser chains s = (s', Ok out).
  Variable G : nat -> Prop.
  Let v0 := f_rows s.
  Hypotheses (LF : frame_ok G v0 lp) (LB : blind_to G v0 lp) (SF : frame_ok G v0 stats) (GF : forall i, G i -> ~ is_free v0 i).
  Hypotheses (Cp : cache_fresh (f_cp s) v0) (Cl : cache_fresh (f_cl s) v0) (OB : objects_ok (f_heap s) d) (ND : NoDup (dkeys (t_cols chains))).
  Hypothesis INJ : forall k k' i, In k (dkeys d) -> In k' (dkeys d) -> dget idx k = Some i -> dget idx k' = Some i -> k = k'.

  Theorem post_fit : exists v1 x0, medians_in d idx (t_cols chains) v0 v1 /\ holds_at v1 x0 /\
    (forall i, ~ is_free v0 i -> ~ G i -> option_map r_val (nth_error (f_rows s') i) = option_map r_val (nth_error v1 i)) /\
    match rev (trace lp (optimiser x0) (v1, f_cl s)) with
    | [] => holds_at (f_rows s') x0
    | (x, y) :: _ => holds_at (f_rows s') x
    end.
  Proof.
    destruct (post_inv _ _ _ _ _ _ _ _ _ _ _ _ E) as (t1 & cols & v1 & h1 & s2 & v3 & y & v4 & h5 & sp & E1 & E2 & E3 & E4 & E5 & E6 & E7 & E8 & E9 & E10 & E11).
    destruct (medians_loop _ _ _ ND INJ _ _ E3) as [M1 M2]. pose proof (medians_shape _ _ _ _ _ E3) as SH.
    assert (frame_ok G v1 lp) as LF1 by (intros v Hv; apply LF; eapply agree_trans; eauto).
    assert (blind_to G v1 lp) as LB1 by (intros v w Hv; apply LB; eapply agree_trans; eauto).
    assert (forall i, is_free v1 i <-> is_free v0 i) as FR.
    { intro i. destruct SH as [SL SH]. split; intros (r & Hr & Hv).
      - destruct (nth_error v0 i) as [q|] eqn:Hq; [|apply nth_error_None in Hq; assert (nth_error v1 i <> None) as Z by congruence; apply nth_error_Some in Z; unfold v0 in *; lia].
        exists q. split; [auto|]. destruct (SH i q r Hq Hr) as [-> _]. exact Hv.
      - destruct (nth_error v1 i) as [q|] eqn:Hq; [|apply nth_error_None in Hq; assert (nth_error v0 i <> None) as Z by congruence; apply nth_error_Some in Z; unfold v0 in *; lia].
        exists q. split; [auto|]. destruct (SH i r q Hr Hq) as [<- _]. exact Hv. }
    assert (forall i, G i -> ~ is_free v1 i) as GF1 by (intros i Hi; rewrite FR; auto).
    assert (forall c, cache_fresh c v0 -> cache_fresh c v1) as CF by (intro c; now apply fresh_agree).
    assert (objects_ok h1 d) as OB1 by (eapply objects_len; [|exact OB]; eapply vd_len; eauto).
    assert (forall k i, In k (dkeys d) -> dget idx k = Some i -> (i < length v1)%nat) as HR.
    { intros k i Hk Hi. destruct (vd_ok _ _ _ _ _ OB E4) as [_ Z]. destruct (Z k i Hk Hi) as (r & _ & Hr & _). apply nth_error_Some. congruence. }
    destruct (maxlike_main lp G v1 LF1 LB1 GF1 d idx h1 OB1 HR (f_cp s) (f_cl s) optimiser false s2 (CF _ Cp) (CF _ Cl) E5) as (x0 & v1' & H0 & A1 & Hv & H2).
    specialize (Hv eq_refl). subst v1'. cbv zeta in H2. destruct H2 as (_ & Q1 & _ & Q3 & _).
    assert (agree (fun _ => True) v0 (f_rows s2)) as SH2.
    { eapply agree_trans; [exact SH|]. eapply fit_shape; [exact LF1|exact LB1|exact GF1|apply (CF _ Cl)|exact E5]. }
    assert (agree G (f_rows s2) v4) as AG.
    { pose proof (LF _ SH2) as Z1. rewrite E6 in Z1. cbn in Z1. eapply agree_trans; [exact Z1|].
      assert (same_shape v0 v3) as SH3 by (eapply agree_trans; [exact SH2|]; eapply same_shape_of; exact Z1).
      pose proof (SF _ SH3) as Z2. rewrite E7 in Z2. exact Z2. }
    assert (forall x, holds_at (f_rows s2) x -> holds_at v4 x) as HA.
    { intros x. apply (holds_frame G v0 GF); [exact SH2|exact AG]. }
    exists v1, x0. rewrite E10. split; [exact M1|]. split; [exact H0|]. split.
    - intros i Hi Hg. rewrite <- (Q1 i); [|now rewrite FR|exact Hg]. destruct AG as [AL AG].
      destruct (nth_error v4 i) as [a|] eqn:Ha, (nth_error (f_rows s2) i) as [c|] eqn:Hc; cbn; auto.
      + destruct (AG i c a Hc Ha) as (_ & _ & _ & [Z|Z]); [contradiction|congruence].
      + apply nth_error_None in Hc. assert (nth_error v4 i <> None) as Z by congruence. apply nth_error_Some in Z. lia.
      + apply nth_error_None in Ha. assert (nth_error (f_rows s2) i <> None) as Z by congruence. apply nth_error_Some in Z. lia.
    - destruct (rev _) as [|[x y'] ?]; [auto|]. destruct Q3. auto.
  Qed.
End Fit.

(** ** fixed parameters *)
Section Fixed.
  Variables (dexp : R -> Z) (ends0 : R -> bool) (fuel : nat).
  Lemma reported_const x n best o : reported_for dexp ends0 fuel (repeat x n) best o -> o = (0, x, best).
  Proof.
    intros (NE & A & B). assert (0 < n)%nat as Hn by (destruct n; [easy|lia]).
    rewrite !quantile_const in A by (auto; lra). replace ((x - x) / 2) with 0 in A by lra. rewrite round_sig_zero in A. apply A. lra.
  Qed.
  Theorem post_fixed lp stats ps idx optimiser chains s s' out b names val :
    postprocess dexp ends0 fuel lp stats ps idx optimiser chains s = (s', Ok out) ->
    ParamsSpec.params_ok (f_heap s) ps b names -> objects_ok (f_heap s) (ps_items ps) ->
    (forall n p, (1 <= n <= ps_num ps)%nat -> In p names -> value_in idx (f_rows s') (key p n) (val n p)) ->
    forall k x, fixed_at (ps_items ps) idx (f_rows s) k x -> ~ element_key (ps_num ps) k ->
    exists best, value_in idx (f_rows s') k best /\ dget out k = Some (0, x, best) /\
      forall G, fit_ready G lp stats (ps_items ps) idx chains s -> (forall i, dget idx k = Some i -> ~ G i) -> ~ In k (dkeys (t_cols chains)) -> best = x.
  Proof.
    intros E OK OB FV k x F He. destruct (post_main _ _ _ _ _ _ _ _ _ _ _ _ E b names val OK OB FV) as [A _].
    pose proof F as [Hk (i & r & I1 & I2 & I3 & I4)].
    destruct (A k Hk He) as (col & best & o & S & V & RP & O). exists best. split; [exact V|].
    destruct S as [(y & Fy & ->)|[N _]]; [|destruct (N x F)]. rewrite (fixed_unique _ _ _ _ _ _ Fy F) in RP. split; [rewrite O; f_equal; now apply reported_const in RP|].
    intros G [LF LB SF GF Cp Cl ND INJ] HG HC.
    destruct (post_fit _ _ _ _ _ _ _ _ _ _ _ _ E G LF LB SF GF Cp Cl OB ND INJ) as (v1 & x0 & [M1 M2] & _ & FX & _).
    specialize (FX i). destruct V as (i' & r' & V1 & V2 & V3). assert (i' = i) by congruence. subst i'. rewrite V2, (M2 i), I2 in FX.
    - cbn in FX. assert (Some (r_val r') = Some (r_val r)) as Z; [|congruence]. apply FX; [|now apply HG]. intros (q & Hq & Hv). congruence.
    - intros k2 c2 H2 Hd Hx. assert (k2 = k) by (eapply INJ; eauto). subst k2. apply HC. apply in_map_iff. exists (k, c2). auto.
  Qed.
End Fixed.

(** ** an angle whose samples lie on both sides of the cut *)
Lemma angle_wrong : exists col, (forall x, In x col -> cos x < 0) /\ forall dexp ends0 fuel best o, reported_for dexp ends0 fuel col best o -> cos (snd (fst o)) = 1.
Proof.
  set (a := PI - 1 / 10). exists [- a; a]. pose proof PI2_3_2. assert (cos a < 0) as Ha by (apply cos_lt_0; unfold a; lra).
  split; [intros x [<-|[<-|[]]]; rewrite ?cos_neg; exact Ha|].
  assert (quantile (1 / 2) [- a; a] = 0) as Q.
  { rewrite quantile_half by discriminate. unfold median. cbn. unfold rleb. destruct (Rle_dec (- a) a) as [|N]; [cbn; lra|unfold a in N; lra]. }
  intros dexp ends0 fuel best o (NE & A & B). rewrite Q in A, B. destruct (Rle_dec (round_sig ((quantile (841 / 1000) [- a; a] - quantile (159 / 1000) [- a; a]) / 2) 2) 0) as [Hz|Hz].
  - rewrite (A Hz). cbn. apply cos_0.
  - destruct B as (med & e1 & e2 & best' & e3 & e4 & S1 & _ & ->); [lra|]. cbn. enough (med = 0) as -> by apply cos_0.
    assert (IZR (ZnearestE 0) = 0) as ZN by (exact (f_equal IZR (@Zrnd_IZR ZnearestE _ 0%Z))).
    assert (forall k, round_dec 0 k = 0) as RD by (intro; unfold round_dec; rewrite Rmult_0_l, ZN; ring).
    unfold sigfig in S1. rewrite (proj2 (reqb_true 0 0) eq_refl) in S1. cbn [negb] in S1. rewrite !RD in S1.
    repeat match type of S1 with context [if ?c then _ else _] => destruct c end; injection S1 as <- _ _; auto.
Qed.

(** ** an example: one varied parameter, one marginalised offset *)
Definition ex_names := ["per"; "tp"; "e"; "w"; "k"].
Definition ex_dict : dict nat := [("per1", 0); ("tp1", 1); ("e1", 2); ("w1", 3); ("k1", 4); ("gamma_j", 5)]%nat.
Definition ex_post_ps : params := mkParams ex_dict (basis_init "per tp e w k" 1) 1 ex_names None.
Definition ex_idx : dict nat := [("per1", 0); ("tp1", 1); ("e1", 2); ("w1", 3); ("k1", 4); ("gamma_j", 7)]%nat.
Definition ex_row (x : R) (b l : bool) : row := mkRow (Some x) b (Some 0) l.
Definition ex_rows (k g : R) : list row :=
  [ex_row 10 false false; ex_row 1 false false; ex_row 0 false false; ex_row 2 false false; ex_row k true false; ex_row 0 false false; ex_row 0 false false; ex_row g false true].
Definition ex_par (x : R) (b : bool) : param := mkParam (Some x) (VBool b) None false.
Definition ex_heap : heap := [ex_par 10 false; ex_par 1 false; ex_par 0 false; ex_par 2 false; ex_par 3 true; mkParam (Some 5) (VBool false) None true].
Definition ex_lp (v : list row) : list row * res ext := (setval v 7 (Some 9), Ok (Fin 0)).
Definition ex_stats (v : list row) : list row * res unit := (setval v 7 (Some 9), Ok tt).
Definition ex_chains : table := mkTable 2 [("k1", [4; 4])].
Definition ex_s : fitst := mkFit (ex_rows 3 5) None None ex_heap.
Lemma ex_post : forall dexp ends0 fuel, exists s' out, postprocess dexp ends0 fuel ex_lp ex_stats ex_post_ps ex_idx (fun x0 => Evaluate x0 (fun _ => Report x0)) ex_chains ex_s = (s', Ok out) /\
  f_rows s' = ex_rows 4 9 /\ dget out "gamma_j" = Some (0, 5, 9) /\ dget out "k1" = Some (0, 4, 4) /\ dget out "per1" = Some (0, 10, 10).
Proof.
  intros dexp ends0 fuel.
  assert (forall x q, 0 <= q <= 1 -> quantile q [x; x] = x) as QC by (intros x q Hq; apply (quantile_const q x 2); [lia|exact Hq]).
  assert (forall x best, summarise dexp ends0 fuel [x; x] best = Ok (0, x, best)) as SC.
  { intros x best. unfold summarise. rewrite !QC by lra. replace ((x - x + (x - x)) / 2) with 0 by lra. rewrite round_sig_zero.
    unfold rltb. destruct (Rlt_dec 0 0) as [F|_]; [lra|reflexivity]. }
  set (s2 := mkFit (ex_rows 4 9) (Some [4%nat]) (Some [4%nat]) [ex_par 10 false; ex_par 1 false; ex_par 0 false; ex_par 2 false; ex_par 4 true; mkParam (Some 9) (VBool false) None true]).
  unfold postprocess.
  assert (fill_fixed (ps_items ex_post_ps) ex_idx (f_rows ex_s) ex_chains = Ok (mkTable 2 [("k1", [4; 4]); ("per1", [10; 10]); ("tp1", [1; 1]); ("e1", [0; 0]); ("w1", [2; 2]); ("gamma_j", [5; 5])])) as -> by reflexivity.
  cbn [bind].
  assert (to_synth_table (b_name (ps_basis ex_post_ps)) (b_num (ps_basis ex_post_ps)) (mkTable 2 [("k1", [4; 4]); ("per1", [10; 10]); ("tp1", [1; 1]); ("e1", [0; 0]); ("w1", [2; 2]); ("gamma_j", [5; 5])])
    = Ok [("k1", [4; 4]); ("per1", [10; 10]); ("tp1", [1; 1]); ("e1", [0; 0]); ("w1", [2; 2]); ("gamma_j", [5; 5])]) as -> by reflexivity.
  cbn [bind].
  assert (set_medians (ps_items ex_post_ps) ex_idx (t_cols ex_chains) (f_rows ex_s) = Ok (ex_rows 4 5)) as ->.
  { unfold set_medians. cbn [t_cols ex_chains for_each]. unfold median_step. cbn [fst snd]. rewrite (QC 4 (1 / 2)) by lra. reflexivity. }
  cbn [bind].
  match goal with |- context [vector_to_dict ?a ?b ?c ?d] => assert (vector_to_dict a b c d = Ok [ex_par 10 false; ex_par 1 false; ex_par 0 false; ex_par 2 false; ex_par 4 true; mkParam (Some 5) (VBool false) None true]) as -> by reflexivity end.
  cbn [bind].
  match goal with |- context [maxlike_fitting ?a ?b ?c ?d ?e ?f] => assert (maxlike_fitting a b c d e f = (s2, Ok tt)) as -> by reflexivity end.
  cbv iota beta.
  change (ex_lp (f_rows s2)) with (ex_rows 4 9, Ok (Fin 0)). cbv iota beta. change (ex_stats (ex_rows 4 9)) with (ex_rows 4 9, Ok tt). cbv iota beta.
  match goal with |- context [vector_to_dict ?a ?b ?c ?d] => assert (vector_to_dict a b c d = Ok (f_heap s2)) as -> by reflexivity end.
  cbv iota beta.
  assert (exists h6 sp, to_synth (f_heap s2) (ps_basis ex_post_ps) ex_post_ps true None = Ok (h6, sp) /\
     (forall k, In k (dkeys (ps_items sp)) -> In k ["per1"; "tp1"; "e1"; "w1"; "k1"; "gamma_j"]) /\ dkeys (ps_items sp) = ["per1"; "tp1"; "e1"; "w1"; "k1"; "gamma_j"] /\
     map (fun k => value_at h6 sp k) ["per1"; "tp1"; "e1"; "w1"; "k1"; "gamma_j"] = [Some 10; Some 1; Some 0; Some 2; Some 4; Some 9]) as (h6 & sp & -> & _ & Q2 & Q3).
  { eexists _, _. split; [reflexivity|]. split; [|split]; [|reflexivity|reflexivity]. intros k Hk. exact Hk. }
  unfold summary. rewrite Q2. cbn [map] in Q3. injection Q3 as V1 V2 V3 V4 V5 V6.
  assert (forall cols out k a x, value_at h6 sp k = Some x -> dget cols k = Some [a; a] -> summary_step dexp ends0 fuel cols h6 (ps_items sp) out k = Ok (dset out k (0, a, x))) as ST.
  { intros cols out k a x Hv Hc. unfold summary_step. unfold value_at in Hv. destruct (get_param h6 (ps_items sp) k) as [p|]; [|discriminate]. rewrite Hv.
    unfold dget_res. rewrite Hc. cbn [bind]. rewrite SC. reflexivity. }
  cbn [for_each].
  rewrite (ST _ _ _ 10 10 V1) by reflexivity. cbn [bind]. rewrite (ST _ _ _ 1 1 V2) by reflexivity. cbn [bind]. rewrite (ST _ _ _ 0 0 V3) by reflexivity. cbn [bind].
  rewrite (ST _ _ _ 2 2 V4) by reflexivity. cbn [bind]. rewrite (ST _ _ _ 4 4 V5) by reflexivity. cbn [bind]. rewrite (ST _ _ _ 5 9 V6) by reflexivity. cbn [bind].
  eexists _, _. split; [reflexivity|]. repeat split; reflexivity.
Qed.

Lemma ex_params_ok : ParamsSpec.params_ok ex_heap ex_post_ps "per tp e w k" ex_names.
Proof.
  constructor; try reflexivity.
  - now left.
  - intros k l H. repeat (destruct H as [[= <- <-]|H]; [cbn; lia|]). easy.
  - cbn. repeat constructor; cbn; intuition discriminate.
  - intros n p Hn Hp. cbn in Hn. assert (n = 1%nat) as -> by lia. cbn in Hp. repeat (destruct Hp as [<-|Hp]; [cbn; tauto|]). easy.
Qed.
Lemma ex_objects_ok : objects_ok ex_heap ex_dict.
Proof.
  constructor.
  - cbn. repeat constructor; cbn; intuition discriminate.
  - intros k l H. apply dget_in in H. repeat (destruct H as [[= <- <-]|H]; [cbn; lia|]). easy.
  - intros k k' l H H'. apply dget_in in H, H'. cbn in H, H'. intuition congruence.
Qed.
Lemma ex_fit_ready : fit_ready (fun i => i = 7%nat) ex_lp ex_stats ex_dict ex_idx ex_chains ex_s.
Proof.
  assert (forall v x, agree (fun i => i = 7%nat) v (setval v 7 x)) as AG.
  { intros v x. split; [now rewrite length_setval|]. intros i r q Hr Hq. destruct (Nat.eq_dec 7 i) as [<-|N].
    - rewrite (nth_setval_same _ _ _ _ Hr) in Hq. injection Hq as <-. cbn. auto.
    - rewrite nth_setval_other in Hq by exact N. replace q with r by congruence. auto. }
  constructor.
  - intros v _. apply AG.
  - intros v w _ _. reflexivity.
  - intros v _. apply AG.
  - intros i -> (r & Hr & Hv). cbn in Hr. injection Hr as <-. discriminate.
  - now left.
  - now left.
  - cbn. repeat constructor. auto.
  - intros k k' i Hk Hk' H H'. cbn in Hk, Hk'.
    repeat (destruct Hk as [<-|Hk]; [cbn in H; injection H as <-; repeat (destruct Hk' as [<-|Hk']; [cbn in H'; try discriminate; reflexivity|]); easy|]). easy.
Qed.
Lemma ex_values k : forall n p, (1 <= n <= 1)%nat -> In p ex_names -> value_in ex_idx (ex_rows k 9) (key p n)
  (if String.eqb p "per" then 10 else if String.eqb p "tp" then 1 else if String.eqb p "e" then 0 else if String.eqb p "w" then 2 else k).
Proof.
  intros n p Hn Hp. assert (n = 1%nat) as -> by lia. cbn in Hp. repeat (destruct Hp as [<-|Hp]; [eexists _, _; repeat split; reflexivity|]). easy.
Qed.
(** the offset is marginalised: its value after the fit is 9, its "median" is the value before, 5 *)
Lemma offset_stale : exists G ps idx lp stats optimiser chains s b names, fit_ready G lp stats (ps_items ps) idx chains s /\ ParamsSpec.params_ok (f_heap s) ps b names /\ objects_ok (f_heap s) (ps_items ps) /\
  forall dexp ends0 fuel, exists s' out k med best, postprocess dexp ends0 fuel lp stats ps idx optimiser chains s = (s', Ok out) /\
    dget out k = Some (0, med, best) /\ value_in idx (f_rows s') k best /\ med <> best.
Proof.
  eexists _, ex_post_ps, ex_idx, ex_lp, ex_stats, _, ex_chains, ex_s, _, _. split; [apply ex_fit_ready|]. split; [apply ex_params_ok|]. split; [apply ex_objects_ok|].
  intros dexp ends0 fuel. destruct (ex_post dexp ends0 fuel) as (s' & out & E & V & O & _). exists s', out, "gamma_j", 5, 9. split; [exact E|]. split; [exact O|]. split; [|lra].
  rewrite V. exists 7%nat, (ex_row 9 false true). repeat split; reflexivity.
Qed.
