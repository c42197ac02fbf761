(** Step accounting, halting and trajectories of the MCMC driver. *)
From Coq Require Import Reals Arith ZArith Bool Lia Lra List.
From Verif Require Import Py PyFloat PyFacts Mcmc McmcSpec.
Import ListNotations.
Open Scope R_scope.

Lemma bind_ok {A B} (m : res A) (f : A -> res B) b : bind m f = Ok b -> exists a, m = Ok a /\ f a = Ok b.
Proof. destruct m; cbn; [eauto|discriminate]. Qed.
Ltac binds H := repeat match type of H with bind _ _ = Ok _ => let a := fresh "a" in let E := fresh "E" in apply bind_ok in H as [a [E H]] end.

Section P.
Variable tr : nat -> nat -> ens -> sample * list nat.
Variable acor : list (list sample) -> list ext.
Variable g : mcfg.
Notation path := (path tr). Notation stored := (stored tr). Notation pos_after := (pos_after tr).

(** ** Samplers *)

Lemma one_step_chain e p s : sp_chain (one_step tr e p s) = sp_chain s ++ [fst (tr e (sp_calls s) p)] /\
  sp_calls (one_step tr e p s) = S (sp_calls s).
Proof. unfold one_step. destruct (tr e (sp_calls s) p). auto. Qed.
Lemma run_steps_chain e n : forall p s,
  sp_chain (run_steps tr e n p s) = sp_chain s ++ path e n (sp_calls s) p /\ sp_calls (run_steps tr e n p s) = (sp_calls s + n)%nat.
Proof.
  induction n as [|n IH]; intros p s; cbn.
  - rewrite app_nil_r. split; auto.
  - destruct (IH (s_pos (fst (tr e (sp_calls s) p))) (one_step tr e p s)) as [A B].
    destruct (one_step_chain e p s) as [C D]. rewrite A, B, C, D, <- app_assoc. split; [reflexivity|lia].
Qed.
Lemma path_length e n : forall c p, length (path e n c p) = n.
Proof. induction n; intros; cbn; auto. Qed.

(** sampler [s] of ensemble [e] holds the samples of [k] rounds begun at [p], call [c] *)
Definition holds (e k c : nat) (p : ens) (s : sampler) : Prop :=
  sp_chain s = stored e (g_check g) k c p /\ sp_calls s = (c + k * g_check g)%nat.

Lemma stored_snoc e ci k : forall c p,
  stored e ci (S k) c p = stored e ci k c p ++ fst (tr e (c + k * ci) (pos_after e ci k c p))
                            :: path e (ci - 1) (S (c + k * ci)) (pos_after e ci k c p).
Proof.
  induction k as [|k IH]; intros c p.
  - cbn. rewrite Nat.add_0_r, app_nil_r. reflexivity.
  - change (stored e ci (S (S k)) c p) with (fst (tr e c p) :: path e (ci - 1) (S c) p ++ stored e ci (S k) (c + ci) (end_of p (path e (ci - 1) (S c) p))).
    rewrite IH. change (pos_after e ci (S k) c p) with (pos_after e ci k (c + ci) (end_of p (path e (ci - 1) (S c) p))).
    replace (c + S k * ci)%nat with (c + ci + k * ci)%nat by lia.
    cbn [McmcSpec.stored app]. rewrite <- app_assoc. reflexivity.
Qed.
Lemma pos_after_snoc e ci k : forall c p,
  pos_after e ci (S k) c p = end_of (pos_after e ci k c p) (path e (ci - 1) (S (c + k * ci)) (pos_after e ci k c p)).
Proof.
  induction k as [|k IH]; intros c p.
  - cbn. now rewrite Nat.add_0_r.
  - change (pos_after e ci (S (S k)) c p) with (pos_after e ci (S k) (c + ci) (end_of p (path e (ci - 1) (S c) p))).
    rewrite IH. replace (c + S k * ci)%nat with (c + ci + k * ci)%nat by lia. reflexivity.
Qed.
Lemma stored_length e ci k : (1 <= ci)%nat -> forall c p, length (stored e ci k c p) = (k * ci)%nat.
Proof.
  intro H. induction k as [|k IH]; intros; cbn; auto. rewrite app_length, path_length, IH. lia.
Qed.
(** with checkinterval >= 2 the last stored sample is the current position *)
Lemma stored_last e ci k c p : (2 <= ci)%nat -> (1 <= k)%nat ->
  exists l x, stored e ci k c p = l ++ [x] /\ s_pos x = pos_after e ci k c p.
Proof.
  intros H Hk. destruct k as [|k]; [lia|]. rewrite stored_snoc, pos_after_snoc. set (q := pos_after e ci k c p).
  set (c' := S (c + k * ci)). destruct (path e (ci - 1) c' q) as [|y l] eqn:E using rev_ind.
  - apply (f_equal (@length _)) in E. rewrite path_length in E. cbn in E. lia.
  - clear IHl. unfold end_of. rewrite rev_app_distr. cbn.
    exists (stored e ci k c p ++ fst (tr e (c + k * ci) q) :: l). exists y. split; [now rewrite <- app_assoc|auto].
Qed.

Lemma last_sample_snoc l x a b : last_sample (mkSp (l ++ [x]) a b) = Ok (s_pos x).
Proof. unfold last_sample. cbn. now rewrite rev_app_distr. Qed.
Lemma holds_last e k c p s : (2 <= g_check g)%nat -> (1 <= k)%nat -> holds e k c p s -> last_sample s = Ok (pos_after e (g_check g) k c p).
Proof.
  intros H2 Hk [Hc _]. destruct (stored_last e (g_check g) k c p H2 Hk) as [l [x [E1 E2]]].
  destruct s as [ch a b]. cbn in Hc. subst ch. rewrite E1, last_sample_snoc. now rewrite E2.
Qed.

(** ** A round *)

(** [inits] and [sps] hold [k] rounds for ensembles e, e+1, ... *)
Fixpoint all_hold (e k c : nat) (inits : list ens) (sps : list sampler) : Prop :=
  match inits, sps with
  | [], [] => True
  | p :: inits', s :: sps' => holds e k c p s /\ all_hold (S e) k c inits' sps'
  | _, _ => False
  end.

Lemma round_holds k c inits : (2 <= g_check g)%nat -> forall e started sps,
  all_hold e k c inits sps -> (started = false -> k = 0%nat) ->
  exists inp st, first_steps tr e started inits sps = Ok (inp, st) /\
    all_hold e (S k) c inits (domcmc tr e (g_check g - 1) inp) /\ (inits <> [] -> st = true).
Proof.
  intro H2. induction inits as [|p inits IH]; intros e started [|s sps] H Hs; cbn in H; try contradiction.
  - exists [], started. split; [reflexivity|split; [exact I|intro Q; now destruct Q]].
  - destruct H as [H H']. cbn [first_steps].
    assert ((if Nat.leb (iteration s) 1 || negb started then Ok p else last_sample s) = Ok (pos_after e (g_check g) k c p)) as E.
    { destruct k as [|k].
      - destruct H as [Hc _]. cbn in Hc. unfold iteration. rewrite Hc. reflexivity.
      - destruct started; [|discriminate (Hs eq_refl)].
        assert (iteration s = (S k * g_check g)%nat) as L by (unfold iteration; destruct H as [-> _]; apply stored_length; lia).
        rewrite L. destruct (Nat.leb_spec (S k * g_check g) 1); [nia|]. cbn [orb negb].
        apply holds_last; auto; lia. }
    rewrite E. cbn [bind].
    destruct (IH (S e) true sps H' ltac:(discriminate)) as [inp [st [I1 [I2 I3]]]]. rewrite I1. cbn [bind].
    eexists; eexists. split; [reflexivity|]. cbn [domcmc all_hold]. split; [split; [|exact I2]|].
    + set (q := pos_after e (g_check g) k c p). destruct (one_step_chain e q s) as [A B].
      destruct (run_steps_chain e (g_check g - 1) q (one_step tr e q s)) as [C D]. destruct H as [Hc Hn].
      split.
      * rewrite C, A, B, Hc, Hn, stored_snoc, <- app_assoc. reflexivity.
      * rewrite D, B, Hn. nia.
    + intros _. destruct inits; [|apply I3; discriminate]. cbn in I1. destruct sps; injection I1; auto.
Qed.

Lemma all_hold_length e k c inits : forall sps, all_hold e k c inits sps -> length sps = length inits.
Proof. revert e. induction inits; intros e [|s sps] H; cbn in *; try contradiction; auto. f_equal. eapply IHinits. apply H. Qed.
Lemma all_hold_total e k c inits : (1 <= g_check g)%nat -> forall sps, all_hold e k c inits sps ->
  length (concat (map sp_chain sps)) = (length inits * (k * g_check g))%nat.
Proof.
  intro H1. revert e. induction inits as [|p inits IH]; intros e [|s sps] H; cbn in *; try contradiction; auto.
  destruct H as [[Hc _] H']. rewrite app_length, (IH _ _ H'), Hc, stored_length by auto. reflexivity.
Qed.
Lemma all_hold_nth e k c inits : forall sps, all_hold e k c inits sps -> forall i p, nth_error inits i = Some p ->
  exists s, nth_error sps i = Some s /\ holds (e + i) k c p s.
Proof.
  revert e. induction inits as [|p0 inits IH]; intros e [|s sps] H i p Hi; cbn in H; try contradiction; [destruct i; easy|].
  destruct i as [|i]; cbn in *.
  - injection Hi as <-. exists s. rewrite Nat.add_0_r. split; [auto|apply H].
  - destruct (IH _ _ (proj2 H) i p Hi) as [s' [A B]]. exists s'. split; auto. now rewrite Nat.add_succ_r.
Qed.

(** convergence_check leaves the samplers alone *)
Lemma check_frame m m' : convergence_check acor g m = Ok m' ->
  m_samplers m' = m_samplers m /\ m_inits m' = m_inits m /\ m_started m' = m_started m /\ m_burned m' = m_burned m /\ m_nburn m' = m_nburn m /\
  m_chains m' = Some (map sp_chain (m_samplers m)) /\
  m_ncomplete m' = (m_nburn m + nw_of g * length (concat (map sp_chain (m_samplers m))))%nat.
Proof.
  unfold convergence_check. intro H. destruct (Nat.eqb (g_ensembles g) 0); [discriminate|]. cbv zeta in H.
  destruct (_ && _) in H.
  - injection H as <-. cbn. repeat split.
  - binds H. injection H as <-. cbn. repeat split.
Qed.

Lemma map_last k c inits : (2 <= g_check g)%nat -> (1 <= k)%nat -> forall e sps, all_hold e k c inits sps ->
  exists inits', map_res last_sample sps = Ok inits' /\ length inits' = length inits /\
    all_hold e 0 (c + k * g_check g) inits' (map sp_reset sps) /\
    forall i p, nth_error inits i = Some p -> nth_error inits' i = Some (pos_after (e + i) (g_check g) k c p).
Proof.
  intros H2 Hk. induction inits as [|p inits IH]; intros e [|s sps] H; cbn in H; try contradiction.
  - exists []. repeat split. intros [|i]; discriminate.
  - destruct H as [H H']. destruct (IH _ _ H') as [l [A [B [C D]]]]. cbn [map_res]. rewrite (holds_last _ _ _ _ _ H2 Hk H). cbn [bind].
    rewrite A. cbn [bind]. eexists. split; [reflexivity|]. split; [cbn; congruence|]. split.
    + cbn [map all_hold]. split; [|exact C]. split; [reflexivity|]. cbn. rewrite (proj2 H). lia.
    + intros [|i] q Hq; cbn in *; [injection Hq as <-; now rewrite Nat.add_0_r|]. rewrite Nat.add_succ_r. apply (D i q Hq).
Qed.

(** ** The invariant *)

Variable inits0 : list ens.
Hypothesis Hlen : length inits0 = g_ensembles g.
Hypothesis Hci : (2 <= g_check g)%nat.

(** chains of ensembles 0..: [k] rounds begun at positions [ps], call [c] *)
Definition chains_are (k c : nat) (ps : list ens) (chains : list (list sample)) : Prop :=
  length chains = length ps /\
  forall e p, nth_error ps e = Some p -> nth_error chains e = Some (stored e (g_check g) k c p).
(** positions after the first [b] rounds *)
Definition positions (b : nat) (ps : list ens) : Prop :=
  length ps = length inits0 /\
  forall e p, nth_error inits0 e = Some p -> nth_error ps e = Some (pos_after e (g_check g) b 0 p).

Record inv (r : nat) (m : mstate) : Prop := {
  i_start : (1 <= r)%nat -> inits0 <> [] -> m_started m = true;
  i_comp : (1 <= r)%nat -> m_ncomplete m = (r * g_check g * nw_of g * g_ensembles g)%nat;
  i_run : exists b, (b <= r)%nat /\ positions b (m_inits m) /\
     all_hold 0 (r - b) (b * g_check g) (m_inits m) (m_samplers m) /\
     (m_burned m = false -> b = 0%nat /\ m_nburn m = 0%nat) /\
     (m_burned m = true -> (1 <= b)%nat /\ m_nburn m = (b * g_check g * nw_of g * g_ensembles g)%nat) /\
     ((1 <= r)%nat -> exists chains, m_chains m = Some chains /\
        if (b <? r)%nat then chains_are (r - b) (b * g_check g) (m_inits m) chains
        else chains_are r 0 inits0 chains) }.

Lemma all_hold_chains k c ps sps : all_hold 0 k c ps sps -> chains_are k c ps (map sp_chain sps).
Proof.
  intro H. split; [rewrite map_length; eapply all_hold_length; eauto|].
  intros e p Hp. destruct (all_hold_nth _ _ _ _ _ H e p Hp) as [s [A [B _]]]. rewrite nth_error_map, A. cbn. now rewrite B.
Qed.

Lemma inv_start prev : inv 0 (start g inits0 prev).
Proof.
  split; [lia|lia|]. exists 0%nat. split; [lia|]. split; [split; [reflexivity|auto]|]. split.
  - cbn [start m_inits m_samplers]. rewrite <- Hlen. clear Hlen. 
    assert (forall e, all_hold e 0 0 inits0 (repeat new_sampler (length inits0))) as G; [|apply G].
    induction inits0 as [|p l IH]; intro e; cbn; auto. split; [split; reflexivity|apply IH].
  - cbn. repeat split; auto; try discriminate. lia.
Qed.

Lemma positions_nil b ps : positions b ps -> inits0 <> [] -> ps <> [].
Proof. intros [L _] N ->. destruct inits0; [easy|discriminate]. Qed.
Lemma positions_0 ps : positions 0 ps -> ps = inits0.
Proof.
  intros [L H]. revert L H. clear Hlen. revert ps. generalize inits0. cbn. intros l. 
  induction l as [|p l IH]; intros [|q ps] L H; cbn in L; try discriminate; auto.
  injection L as L. f_equal.
  - specialize (H 0%nat p eq_refl). now injection H.
  - apply IH; auto. intros e x Hx. apply (H (S e) x Hx).
Qed.
Lemma pos_after_add e ci a b p : pos_after e ci b (a * ci) (pos_after e ci a 0 p) = pos_after e ci (a + b) 0 p.
Proof.
  assert (forall a c p, pos_after e ci b (c + a * ci) (pos_after e ci a c p) = pos_after e ci (a + b) c p) as G.
  { clear. induction a as [|a IH]; intros c p; cbn [McmcSpec.pos_after Nat.add].
    - now rewrite Nat.mul_0_l, Nat.add_0_r.
    - rewrite <- IH. f_equal. lia. }
  apply (G a 0%nat p).
Qed.

Lemma inv_round r m m' : inv r m -> one_round tr acor g m = Ok m' -> inv (S r) m'.
Proof.
  intros [I1 I2 [b [Hb [Hp [Hh [Hn0 [Hn1 Hc]]]]]]] H.
  unfold one_round, round_to_save in H. apply bind_ok in H as [m1 [Es Hburn]]. apply bind_ok in Es as [m0 [E0 Ec]].
  assert (m_started m = false -> (r - b)%nat = 0%nat) as Hst.
  { intro Q. destruct r as [|r]; [lia|]. destruct inits0 as [|p0 l0] eqn:Ei.
    - destruct Hp as [L _]. rewrite Ei in L. destruct (m_inits m); [|discriminate]. cbn in Hlen.
      exfalso. unfold convergence_check in Ec.
      rewrite <- Hlen in Ec. discriminate.
    - rewrite I1 in Q; [discriminate|lia|congruence]. }
  destruct (round_holds (r - b) (b * g_check g) (m_inits m) Hci 0 (m_started m) (m_samplers m) Hh Hst) as [inp [st [F1 [F2 F3]]]].
  unfold sample_round in E0. rewrite F1 in E0. cbn [bind] in E0. injection E0 as <-.
  destruct (check_frame _ _ Ec) as [G1 [G2 [G3 [G4 [G5 [G6 G7]]]]]]. cbn [m_samplers m_inits m_started m_burned m_nburn] in G1, G2, G3, G4, G5, G6, G7.
  assert (length (m_inits m) = g_ensembles g) as Li by (rewrite <- Hlen; apply Hp).
  assert (S r - b = S (r - b))%nat as Sb by lia.
  assert (m_ncomplete m1 = (S r * g_check g * nw_of g * g_ensembles g)%nat) as NC.
  { rewrite G7, (all_hold_total 0 (S (r - b)) _ _ ltac:(lia) _ F2), Li.
    destruct (m_burned m) eqn:Bm; [destruct (Hn1 eq_refl) as [_ ->]|destruct (Hn0 eq_refl) as [-> ->]]; [|rewrite Nat.sub_0_r; nia].
    replace (S r) with (b + S (r - b))%nat by lia. nia. }
  pose proof (all_hold_chains _ _ _ _ F2) as CA.
  unfold burn_step in Hburn. destruct (negb (m_burned m1) && _) eqn:Q.
  - (* burn-in ends *)
    apply andb_true_iff in Q as [Q _]. rewrite G4 in Q. apply negb_true_iff in Q. destruct (Hn0 Q) as [-> Hz].
    rewrite Nat.sub_0_r in *. cbn [Nat.mul] in *.
    destruct (map_last (S r) 0 (m_inits m) Hci ltac:(lia) 0 _ F2) as [l [M1 [M2 [M3 M4]]]].
    rewrite G1, M1 in Hburn. cbn [bind] in Hburn. injection Hburn as <-.
    pose proof (positions_0 _ Hp) as Ei.
    split; cbn.
    + intros _ Hne. rewrite G3. apply F3. now rewrite Ei.
    + intros _. rewrite NC. nia.
    + exists (S r). split; [lia|]. split.
      { split; [rewrite M2, Ei; reflexivity|]. intros e p Hpe. rewrite <- Ei in Hpe. apply (M4 e p Hpe). }
      split; [rewrite Nat.sub_diag; exact M3|]. split; [discriminate|]. split.
      { intros _. split; [lia|]. rewrite NC. nia. }
      intros _. eexists. split; [rewrite G6; reflexivity|]. change (S r <=? r)%nat with (S r <? S r)%nat. rewrite Nat.ltb_irrefl, <- Ei. exact CA.
  - injection Hburn as <-. split.
    + intros _ Hne. rewrite G3. apply F3. eapply positions_nil; eauto.
    + intros _. exact NC.
    + exists b. rewrite G2. split; [lia|]. split; [exact Hp|]. split; [rewrite Sb, G1; exact F2|].
      split; [rewrite G4, G5; exact Hn0|]. split; [rewrite G4, G5; exact Hn1|].
      intros _. eexists. split; [rewrite G6; reflexivity|]. destruct (Nat.ltb_spec b (S r)); [|lia]. rewrite Sb. exact CA.
Qed.

Lemma inv_after prev r h m : after tr acor g (start g inits0 prev) r h m -> inv r m.
Proof.
  intro H. induction H; [apply inv_start|eapply inv_round; eauto|eapply inv_round; eauto].
Qed.
End P.
