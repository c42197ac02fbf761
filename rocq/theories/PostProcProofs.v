(** Proofs for C65. *)
From Coq Require Import ZArith Reals String Arith Bool Lia Lra List.
From Flocq Require Import Core.
From Verif Require Import Py PyFloat PyFacts PyFloatFacts Params ParamsProofs ParamsSpec VectorProofs Basis BasisProofs BasisConv BasisModel BasisThms Likelihood LikeSpec LikeProofs LikeHist
  Fitting FittingProofs PickleProofs Format FormatProofs Stats PostProc PostProcSpec.
Import ListNotations.
Open Scope R_scope.
Open Scope string_scope.

(** ** generic *)
Lemma for_each_inv {A S} (f : S -> A -> res S) l : forall s s', for_each l f s = Ok s' -> forall x, In x l -> exists a b, f a x = Ok b.
Proof.
  induction l as [|y l IH]; intros s s' E x Hx; [easy|]. cbn in E. destruct (f s y) as [s1|] eqn:E1; [|discriminate]. cbn in E.
  destruct Hx as [<-|Hx]; eauto.
Qed.
Lemma map_res_nth {A B} (f : A -> res B) l : forall r, map_res f l = Ok r -> length r = length l /\ forall i x, nth_error l i = Some x -> exists y, nth_error r i = Some y /\ f x = Ok y.
Proof.
  induction l as [|a l IH]; intros r E; cbn in E.
  - injection E as <-. split; [reflexivity|]. intros [|i] x; discriminate.
  - destruct (f a) as [b|] eqn:Ea; [|discriminate]. cbn in E. destruct (map_res f l) as [r'|]; [|discriminate]. cbn in E. injection E as <-.
    destruct (IH r' eq_refl) as [L H]. split; [cbn; congruence|]. intros [|i] x Hx; cbn in Hx |- *; [injection Hx as <-; eauto|eauto].
Qed.

(** ** fixed parameters *)
Lemma fill_step_inv d idx v t par t' : In par (dkeys d) -> fill_step idx v t par = Ok t' ->
  t_len t' = t_len t /\
  ((exists x, fixed_at d idx v par x /\ t_cols t' = dset (t_cols t) par (repeat x (t_len t))) \/ ((forall x, ~ fixed_at d idx v par x) /\ t' = t)).
Proof.
  intro Hk. unfold fill_step, dget_res. destruct (dget idx par) as [i|] eqn:Ei; [|discriminate]. cbn [bind].
  destruct (nth_error v i) as [r|] eqn:Er; [|discriminate]. destruct (r_vary r) eqn:Ev.
  - intros [= <-]. split; [reflexivity|]. right. split; [|reflexivity]. intros x (_ & j & q & H1 & H2 & H3 & _). congruence.
  - destruct (r_val r) as [x|] eqn:Ex; [|discriminate]. intros [= <-]. split; [reflexivity|]. left. exists x. split; [|reflexivity].
    split; [exact Hk|]. exists i, r. auto.
Qed.
Lemma fixed_unique d idx v k x y : fixed_at d idx v k x -> fixed_at d idx v k y -> x = y.
Proof. intros (_ & i & r & A & B & _ & C) (_ & i' & r' & A' & B' & _ & C'). congruence. Qed.

Lemma fill_loop d idx v ks : incl ks (dkeys d) -> forall t t1, for_each ks (fill_step idx v) t = Ok t1 ->
  t_len t1 = t_len t /\ forall k,
    (forall x, In k ks -> fixed_at d idx v k x -> dget (t_cols t1) k = Some (repeat x (t_len t))) /\
    ((~ In k ks \/ forall x, ~ fixed_at d idx v k x) -> dget (t_cols t1) k = dget (t_cols t) k).
Proof.
  induction ks as [|a ks IH]; intros I t t1 E; cbn in E.
  - injection E as <-. split; [reflexivity|]. intro k. split; [intros ? []|auto].
  - destruct (fill_step idx v t a) as [t0|] eqn:Ea; [|discriminate]. cbn in E.
    destruct (fill_step_inv d _ _ _ _ _ (I a (or_introl eq_refl)) Ea) as [L0 C0].
    destruct (IH (fun q Hq => I q (or_intror Hq)) t0 t1 E) as [L1 H1]. split; [congruence|]. intro k. destruct (H1 k) as [A B]. split.
    + intros x Hk F. destruct (in_dec string_dec k ks) as [Hin|Hn]; [rewrite (A x Hin F); congruence|].
      destruct Hk as [<-|]; [|easy]. rewrite B by auto. destruct C0 as [(y & Fy & ->)|[N _]]; [|destruct (N x F)].
      rewrite dget_dset_same. now rewrite (fixed_unique _ _ _ _ _ _ F Fy).
    + intro Hk. rewrite B.
      * destruct C0 as [(y & Fy & ->)|[_ ->]]; [|reflexivity]. apply dget_dset_other. intros ->. destruct Hk as [Hk|Hk]; [apply Hk; now left|apply (Hk y Fy)].
      * destruct Hk as [Hk|Hk]; [left; intro; apply Hk; now right|now right].
Qed.
Lemma fill_samples d idx v t t1 k col : fill_fixed d idx v t = Ok t1 -> (dget (t_cols t1) k = Some col <-> samples_of d idx v t k col).
Proof.
  intro E. destruct (fill_loop d idx v (dkeys d) (incl_refl _) t t1 E) as [L H]. destruct (H k) as [A B].
  destruct (in_dec string_dec k (dkeys d)) as [Hk|Hk].
  - destruct (for_each_inv _ _ _ _ E k Hk) as (a & b & Eab). destruct (fill_step_inv d _ _ _ _ _ Hk Eab) as [_ [(x & F & _)|[N _]]].
    + rewrite (A x Hk F). split.
      * intros [= <-]. left. eauto.
      * intros [(y & Fy & ->)|[N _]]; [now rewrite (fixed_unique _ _ _ _ _ _ F Fy)|destruct (N x F)].
    + rewrite B by auto. split; [intro; right; auto|]. intros [(x & F & _)|[_ Q]]; [destruct (N x F)|exact Q].
  - rewrite B by auto. assert (forall x, ~ fixed_at d idx v k x) as N by (intros x [Q _]; easy). split; [intro; right; auto|].
    intros [(x & F & _)|[_ Q]]; [destruct (N x F)|exact Q].
Qed.

(** ** elements of the samples *)
Lemma five_dset (f : string -> list R) n p out : In p FIVE ->
  dget (fold_left (fun o q => dset o (key q n) (f q)) FIVE out) (key p n) = Some (f p).
Proof.
  intro Hp. unfold FIVE. cbn [fold_left]. rewrite !dget_dset. rewrite !key_eqb by (apply pnames_no_digit; cbn in *; intuition (subst; tauto)).
  rewrite Nat.eqb_refl. cbn in Hp. intuition (subst p; reflexivity).
Qed.
Lemma five_other (f : string -> list R) n k out : (forall p, In p FIVE -> k <> key p n) ->
  dget (fold_left (fun o q => dset o (key q n) (f q)) FIVE out) k = dget out k.
Proof.
  intro H. unfold FIVE. cbn [fold_left]. rewrite !dget_dset.
  repeat match goal with |- context [String.eqb k ?x] => destruct (String.eqb_spec k x) as [->|_]; [exfalso; eapply H; [|reflexivity]; cbn; tauto|] end. reflexivity.
Qed.
Definition column_ok (name : string) (t : table) (n : nat) (p : string) (col : list R) : Prop :=
  length col = t_len t /\ forall i, (i < t_len t)%nat -> exists el, synth_of name (entry t i n) = Ok el /\ nth i col 0 = el_get p el.
Lemma synth_loop name t ns : NoDup ns -> forall out cols, for_each ns (synth_step name t) out = Ok cols ->
  (forall n p, In n ns -> In p FIVE -> exists col, dget cols (key p n) = Some col /\ column_ok name t n p col) /\
  (forall k, (forall n p, In n ns -> In p FIVE -> k <> key p n) -> dget cols k = dget out k).
Proof.
  induction ns as [|m ns IH]; intros ND out cols E; cbn in E; [injection E as <-; split; [easy|auto]|].
  unfold synth_step in E at 1. destruct (synth_of name (entry t 0 m)) as [e0|]; [|discriminate]. cbn [bind] in E.
  destruct (map_res _ _) as [els|] eqn:Em; [|discriminate]. cbn [bind] in E. inversion ND; subst.
  change ["per"; "tp"; "e"; "w"; "k"] with FIVE in E.
  destruct (IH H2 _ _ E) as [A B]. destruct (map_res_nth _ _ _ Em) as [L M]. rewrite seq_length in L. split.
  - intros n p [<-|Hn] Hp; [|eauto]. rewrite B.
    + rewrite (five_dset (fun q => map (el_get q) els)) by exact Hp. eexists. split; [reflexivity|]. split; [now rewrite map_length|].
      intros i Hi. destruct (M i i) as (el & E1 & E2). { rewrite nth_error_nth' with (d := 0%nat) by now rewrite seq_length. now rewrite seq_nth. }
      exists el. split; [exact E2|]. erewrite nth_error_nth; [reflexivity|]. now rewrite nth_error_map, E1.
    + intros n p' Hn Hp' K. apply key_inj in K; try (apply pnames_no_digit; now apply (synth_pnames)). destruct K as [_ ->]. contradiction.
  - intros k Hk. rewrite B; [|intros; apply Hk; auto; now right]. apply (five_other (fun q => map (el_get q) els)). intros p Hp. apply Hk; auto. now left.
Qed.

(** ** medians *)
Lemma medians_loop d idx cols : NoDup (dkeys cols) ->
  (forall k k' i, In k (dkeys d) -> In k' (dkeys d) -> dget idx k = Some i -> dget idx k' = Some i -> k = k') ->
  forall v v1, set_medians d idx cols v = Ok v1 -> medians_in d idx cols v v1 /\ length v1 = length v.
Proof.
  intros ND INJ. unfold set_medians. induction cols as [|[k col] cols IH]; intros v v1 E; cbn [for_each] in E.
  - injection E as <-. split; [split; [easy|auto]|reflexivity].
  - unfold median_step in E at 1. cbn [fst snd] in E. unfold dkeys in ND. cbn in ND. inversion ND; subst.
    destruct (dmem d k) eqn:Dk.
    + assert (In k (dkeys d)) as Hk. { unfold dmem in Dk. destruct (dget d k) eqn:Q; [|discriminate]. eapply dget_key; eauto. }
      unfold dget_res in E. destruct (dget idx k) as [j|] eqn:Ej; [|discriminate]. cbn [bind] in E.
      destruct (nth_error v j) as [r|] eqn:Er; [|discriminate]. cbn [bind] in E.
      destruct (IH H2 _ _ E) as [[A B] L]. rewrite length_setval in L.
      split; [|exact L]. split.
      * intros k' col' i [[= <- <-]|Hin] Hk' Hi.
        -- assert (i = j) by congruence. subst i. exists r. split; [exact Er|]. rewrite B; [now apply nth_setval_same|].
           intros k2 c2 H2k Hd Hx. assert (k2 = k) by (eapply INJ; eauto). subst. apply H1. apply in_map_iff. exists (k, c2). auto.
        -- destruct (A k' col' i Hin Hk' Hi) as (r' & E1 & E2). assert (i <> j) as Hij.
           { intros ->. assert (k' = k) by (eapply INJ; eauto). subst. apply H1. apply in_map_iff. exists (k, col'). auto. }
           rewrite nth_setval_other in E1 by auto. eauto.
      * intros i Hi. rewrite B; [|intros k2 c2 I2 J2; apply (Hi k2 c2); [now right|exact J2]]. apply nth_setval_other. intros ->. apply (Hi k col); auto. now left.
    + cbn [bind] in E. destruct (IH H2 _ _ E) as [[A B] L]. split; [|exact L]. split.
      * intros k' col' i [[= <- <-]|Hin] Hk' Hi; [|eauto]. exfalso. apply dget_some_key in Hk' as [z Hz]. unfold dmem in Dk. now rewrite Hz in Dk.
      * intros i Hi. apply B. intros k2 c2 I2 J2. apply (Hi k2 c2); [now right|exact J2].
Qed.

(** ** the summary *)
Lemma rltb_t x y : rltb x y = true -> x < y. Proof. unfold rltb. destruct (Rlt_dec x y); [auto|discriminate]. Qed.
Lemma rltb_f x y : rltb x y = false -> y <= x. Proof. unfold rltb. destruct (Rlt_dec x y); [discriminate|lra]. Qed.
Section Sum.
  Variables (dexp : R -> Z) (ends0 : R -> bool) (fuel : nat).
  Lemma summarise_inv col best o : summarise dexp ends0 fuel col best = Ok o -> reported_for dexp ends0 fuel col best o.
  Proof.
    unfold summarise, reported_for. destruct col as [|c col]; [discriminate|]. set (l := c :: col).
    replace ((quantile (841 / 1000) l - quantile (1 / 2) l + (quantile (1 / 2) l - quantile (159 / 1000) l)) / 2)
      with ((quantile (841 / 1000) l - quantile (159 / 1000) l) / 2) by lra.
    set (err := round_sig _ 2). assert (l <> []) as NE by (unfold l; discriminate). clearbody l. intro E. cbv zeta. split; [exact NE|].
    destruct (rltb 0 err) eqn:Er.
    - apply rltb_t in Er. split; [lra|]. intros _. destruct (sigfig dexp ends0 fuel (quantile (1 / 2) l) err None) as [[[med e1] e2]|]; [|discriminate]. cbn [bind fst snd] in E.
      destruct (sigfig dexp ends0 fuel best e1 None) as [[[b3 e3] e4]|] eqn:E2; [|discriminate]. cbn [bind fst snd] in E. injection E as <-.
      exists med, e1, e2, b3, e3, e4. auto.
    - apply rltb_f in Er. injection E as <-. split; [auto|lra].
  Qed.
  Lemma summary_loop cols h items ks : forall out0 out, for_each ks (summary_step dexp ends0 fuel cols h items) out0 = Ok out ->
    (forall k, In k ks -> exists p best col o, get_param h items k = Some p /\ p_value p = Some best /\ dget cols k = Some col /\
       reported_for dexp ends0 fuel col best o /\ dget out k = Some o) /\
    (forall k, ~ In k ks -> dget out k = dget out0 k).
  Proof.
    induction ks as [|a ks IH]; intros out0 out E; cbn in E; [injection E as <-; split; [easy|auto]|].
    unfold summary_step in E at 1. destruct (get_param h items a) as [p|] eqn:E1; [|discriminate]. destruct (p_value p) as [best|] eqn:E2; [|discriminate].
    unfold dget_res in E. destruct (dget cols a) as [col|] eqn:E3; [|discriminate]. cbn [bind] in E.
    destruct (summarise dexp ends0 fuel col best) as [o|] eqn:E4; [|discriminate]. cbn [bind] in E. apply summarise_inv in E4.
    destruct (IH _ _ E) as [A B]. split.
    - intros k Hk. destruct (in_dec string_dec k ks) as [Hin|Hn]; [auto|]. destruct Hk as [<-|]; [|easy].
      exists p, best, col, o. repeat split; auto; try apply E4. rewrite B by auto. apply dget_dset_same.
    - intros k Hk. rewrite B; [|intro; apply Hk; now right]. apply dget_dset_other. intros ->. apply Hk. now left.
  Qed.
End Sum.

(** ** vector_to_dict: what a successful call says *)
Lemma vd_step_len d idx v h k h' : vd_step d idx v h k = Ok h' -> length h' = length h.
Proof.
  unfold vd_step. destruct (dget idx k); [|now intros [= <-]]. destruct (nth_error v n); [|discriminate]. destruct (dget d k); [|discriminate].
  destruct (nth_error h n0); [|discriminate]. intros [= <-]. apply length_list_upd.
Qed.
Lemma vd_len d idx v ks : forall h h', for_each ks (vd_step d idx v) h = Ok h' -> length h' = length h.
Proof.
  induction ks as [|k ks IH]; intros h h' E; cbn in E; [now injection E as <-|].
  destruct (vd_step d idx v h k) as [h1|] eqn:E1; [|discriminate]. cbn in E. apply vd_step_len in E1. rewrite (IH _ _ E). exact E1.
Qed.
Lemma vd_ok d idx v h h' : objects_ok h d -> vector_to_dict d idx v h = Ok h' -> length h' = length h /\
  forall k i, In k (dkeys d) -> dget idx k = Some i -> exists r p, nth_error v i = Some r /\ get_param h' d k = Some p /\ p_value p = r_val r.
Proof.
  intros [OW OA ON] E. split; [eapply vd_len; eauto|]. intros k i Hk Hi.
  assert (forall k i, In k (dkeys d) -> dget idx k = Some i -> (i < length v)%nat) as HR.
  { clear k i Hk Hi. intros k i Hk Hi. destruct (for_each_inv _ _ _ _ E k Hk) as (a & b & Eab). unfold vd_step in Eab. rewrite Hi in Eab.
    destruct (nth_error v i) eqn:Q; [|discriminate]. apply nth_error_Some. congruence. }
  destruct (vd_fill d idx v (dkeys d) h) as (h2 & E2 & _ & G & _); auto.
  - intros q Hq. apply dget_some_key in Hq. destruct Hq as [l El]. exists l. split; auto. eauto.
  - unfold vector_to_dict in E. rewrite E in E2. injection E2 as <-.
    pose proof (HR k i Hk Hi) as Hl. apply nth_error_Some in Hl. destruct (nth_error v i) as [r|] eqn:Er; [|easy].
    pose proof Hk as Hk2. apply dget_some_key in Hk2 as [l El]. pose proof (OA k l El) as Hll. apply nth_error_Some in Hll.
    destruct (nth_error h l) as [p|] eqn:Ep; [|easy]. specialize (G k p Hk). unfold get_param at 1 in G. rewrite El in G. specialize (G Ep). rewrite Hi, Er in G.
    eexists r, _. split; [reflexivity|]. split; [exact G|reflexivity].
Qed.
Lemma objects_len h h' d : length h' = length h -> objects_ok h d -> objects_ok h' d.
Proof. intros L [A B C]. constructor; auto. intros. rewrite L. eauto. Qed.

Lemma fit_heap_len lp d idx optimiser s s' : maxlike_fitting lp d idx optimiser false s = (s', Ok tt) -> length (f_heap s') = length (f_heap s).
Proof.
  unfold maxlike_fitting, show. destruct (get_vary_params (f_cp s) (f_rows s)) as [cp x0]. destruct x0 as [x0|]; [|discriminate].
  destruct (minimise lp (optimiser x0) (f_rows s, f_cl s)) as [[v cl] r2]. destruct r2; [|discriminate].
  destruct (vector_to_dict d idx v (f_heap s)) as [h|] eqn:E; [|discriminate]. intros [= <-]. cbn. eapply vd_len; eauto.
Qed.

(** ** to_synth keeps the other parameters *)
Lemma to_synth_keeps h ps b names val h' out : ParamsSpec.params_ok h ps b names ->
  (forall n, (1 <= n <= ps_num ps)%nat -> holds h ps names n (val n)) ->
  to_synth h (ps_basis ps) ps true None = Ok (h', out) ->
  (forall k, ~ element_key (ps_num ps) k -> (In k (dkeys (ps_items out)) <-> In k (dkeys (ps_items ps))) /\ value_at h' out k = value_at h ps k) /\
  (forall n p, (1 <= n <= ps_num ps)%nat -> In p FIVE -> In (key p n) (dkeys (ps_items out)) /\ value_at h' out (key p n) = Some (meaning (els b (val n)) p)).
Proof.
  intros OK HV E. destruct (to_synth_main h ps b names true val (fun n => els b (val n)) OK HV) as (h2 & o2 & E2 & OK2 & (t & Ht) & N2 & _ & _ & _ & H1 & H2 & H3).
  { intros n Hn. apply els_ok with (names := names). apply OK. }
  rewrite E in E2. injection E2 as <- <-.
  pose proof (po_locs _ _ _ _ OK) as LO. pose proof (po_locs _ _ _ _ OK2) as LO2. split.
  - intros k Hk. destruct (planet_or_not (ps_num ps) k) as [(n & p & Hn & Hp & ->)|Hno].
    + assert (~ In p FIVE) as Hp5 by (intro; apply Hk; exists p, n; auto).
      specialize (H3 n Hn).
      assert (dget (projv h' n (ps_items out)) p = dget (dupdate (map (fun p => (p, parameter_default)) names) (projv h n (ps_items ps))) p) as Q.
      { rewrite H3. unfold to_synth1. destruct (el_tuple (els b (val n))) as [[[[? ?] ?] ?] ?]. cbn [sets_of fold_left]. rewrite !dget_set1. cbn [fst].
        repeat match goal with |- context [String.eqb p ?x] => destruct (String.eqb_spec p x) as [->|_]; [exfalso; apply Hp5; cbn; tauto|] end. reflexivity. }
      assert (dget (projv h' n (ps_items out)) p = dget (projv h n (ps_items ps)) p) as Q2.
      { rewrite Q. destruct (in_dec string_dec p (dkeys (projv h n (ps_items ps)))) as [Hi|Hi].
        - apply dget_dupdate_some; [apply projv_nodup; apply OK|exact Hi].
        - assert (~ In p names) as Hnn.
          { intro Hin. pose proof (HV n Hn p Hin) as W. apply Hi.
            assert (option_map p_value (dget (projv h n (ps_items ps)) p) = Some (Some (val n p))) as Z by (eapply holds_proj; eauto).
            destruct (dget (projv h n (ps_items ps)) p) eqn:Y; [|discriminate]. eapply dget_key; eauto. }
          apply dget_none in Hi. rewrite Hi. apply dget_none. intro Hin. apply Hnn.
          clear - Hin Hi. revert Hin. 
          assert (forall (d d2 : dict param) q, In q (dkeys (dupdate d d2)) -> In q (dkeys d) \/ In q (dkeys d2)) as U.
          { clear. intros d d2. revert d. unfold dupdate. induction d2 as [|[a x] d2 IH]; intros d q; cbn [fold_left]; [auto|]. intro H. apply IH in H. cbn [fst snd] in H.
            destruct H as [H|H]; [|right; now right]. apply in_dkeys_dset in H. destruct H as [->|H]; [|auto]. right. left. auto. }
          intro Hin. apply U in Hin. destruct Hin as [Hin|Hin]; [|apply dget_some_key in Hin as [? ?]; congruence].
          unfold dkeys in Hin. rewrite map_map in Hin. cbn in Hin. now rewrite map_id in Hin. }
      rewrite !projv_get in Q2 by auto.
      split; [|unfold value_at; now rewrite Q2].
      split; intro Hin; apply dget_some_key in Hin as [l El].
      * pose proof (po_locs _ _ _ _ OK2 (key p n) l) as Z. specialize (Z (dget_in _ _ _ El)). apply nth_error_Some in Z.
        unfold get_param in Q2. rewrite El in Q2. destruct (dget (ps_items ps) (key p n)) eqn:Y; [eapply dget_key; eauto|congruence].
      * pose proof (po_locs _ _ _ _ OK (key p n) l) as Z. specialize (Z (dget_in _ _ _ El)). apply nth_error_Some in Z.
        unfold get_param in Q2. rewrite El in Q2. destruct (dget (ps_items out) (key p n)) eqn:Y; [eapply dget_key; eauto|congruence].
    + specialize (H2 k Hno). split.
      * split; intro Hin; apply dget_some_key in Hin as [l El]; eapply dget_key; [rewrite <- H2|rewrite H2]; eauto.
      * unfold value_at, get_param. rewrite H2. destruct (dget (ps_items ps) k) as [l|] eqn:El; [|reflexivity]. rewrite Ht.
        rewrite nth_error_app1; [reflexivity|]. eapply (po_locs _ _ _ _ OK). eapply dget_in; eauto.
  - intros n p Hn Hp. pose proof (H1 n Hn p Hp) as Q. split; [|exact Q]. eapply value_key; eauto.
Qed.
