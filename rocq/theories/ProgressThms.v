(** The acceptance rate, the speed and the last message of a run (C88). *)
From Coq Require Import Reals String Ascii ZArith Bool Lia Lra List Decimal DecimalString.
From Verif Require Import Py PyFloat Params Mcmc McmcSpec McmcProofs McmcThms Format Progress ProgressSpec ProgressProofs.
Import ListNotations.
Open Scope string_scope.

Section P.
Variable tr : nat -> nat -> ens -> sample * list nat.
Variable acor : list (list sample) -> list ext.
Variable g : mcfg.
Variable fmt : string -> ext -> string.

(** ** Acceptance *)
Definition acc_ok (s : sampler) : Prop :=
  (sp_acc s = [] /\ sp_chain s = []) \/ (length (sp_acc s) = nw_of g /\ Forall (fun a => (a <= length (sp_chain s))%nat) (sp_acc s)).
Lemma add_acc_length : forall a b n, length a = n -> length b = n -> length (add_acc a b) = n.
Proof. induction a as [|x a IH]; intros [|y b] n A B; cbn in *; try lia. destruct n; [discriminate|]. injection A as A. injection B as B. f_equal. auto. Qed.
Lemma add_acc_le k : forall a b, length a = length b -> Forall (fun x => (x <= k)%nat) a -> Forall (fun x => (x <= 1)%nat) b -> Forall (fun x => (x <= S k)%nat) (add_acc a b).
Proof.
  induction a as [|x a IH]; intros [|y b] L A B; cbn in *; try discriminate; [constructor|]. inversion A; inversion B; subst. constructor; [lia|]. apply IH; auto.
Qed.
Lemma one_step_ok e p s : counts (nw_of g) tr -> acc_ok s -> acc_ok (one_step tr e p s) /\ length (sp_chain (one_step tr e p s)) = S (length (sp_chain s)).
Proof.
  intros C H. destruct (C e (sp_calls s) p) as [C1 C2]. unfold one_step. destruct (tr e (sp_calls s) p) as [x a] eqn:T. cbn [snd] in *.
  assert (length (sp_chain s ++ [x]) = S (length (sp_chain s))) as L by (rewrite app_length; cbn; lia).
  split; [|exact L]. right. cbn [sp_acc sp_chain]. rewrite L. destruct H as [[E1 E2]|[E1 E2]].
  - rewrite E1. cbn [add_acc]. split; [exact C1|]. eapply Forall_impl; [|exact C2]. intros z Hz. cbn beta in *. lia.
  - split; [now apply add_acc_length|]. apply add_acc_le; auto; congruence.
Qed.
Lemma run_steps_ok e n : forall p s, counts (nw_of g) tr -> acc_ok s -> acc_ok (run_steps tr e n p s) /\ length (sp_chain (run_steps tr e n p s)) = (n + length (sp_chain s))%nat.
Proof.
  induction n as [|n IH]; intros p s C H; cbn [run_steps]; [auto|]. destruct (one_step_ok e p s C H) as [A B].
  destruct (IH (s_pos (fst (tr e (sp_calls s) p))) _ C A) as [D F]. split; [exact D|]. rewrite F, B. lia.
Qed.
Definition grown (k : nat) (s s' : sampler) : Prop := (acc_ok s -> acc_ok s') /\ (acc_ok s -> length (sp_chain s') = (k + length (sp_chain s))%nat).
Lemma first_grown (C : counts (nw_of g) tr) : forall inits sps e st l st', length inits = length sps -> first_steps tr e st inits sps = Ok (l, st') ->
  Forall2 (grown 1) sps (map snd l).
Proof.
  induction inits as [|p0 inits IH]; intros [|s sps] e st l st' L H; cbn in L; try discriminate.
  - cbn in H. injection H as <- <-. constructor.
  - cbn [first_steps] in H. apply bind_ok in H as (p1 & _ & H). apply bind_ok in H as ([l1 st1] & A & H). injection H as <- <-. cbn [map snd]. constructor.
    + split; intro K; destruct (one_step_ok e p1 s C K); auto.
    + eapply IH; eauto.
Qed.
Lemma domcmc_grown (C : counts (nw_of g) tr) n : forall l e, Forall2 (grown n) (map snd l) (domcmc tr e n l).
Proof.
  induction l as [|[p s] l IH]; intro e; cbn [domcmc map snd]; constructor; [|apply IH].
  split; intro K; destruct (run_steps_ok e n p s C K); auto.
Qed.
Lemma grown_trans j k : forall a b c, Forall2 (grown j) a b -> Forall2 (grown k) b c -> Forall2 (grown (k + j)) a c.
Proof.
  intros a b c H. revert c. induction H as [|x y a b G H IH]; intros c K; inversion K; subst; constructor; [|now apply IH].
  match goal with Q : grown k y _ |- _ => destruct Q as [Q1 Q2] end. destruct G as [G1 G2]. split; intro A; [auto|]. rewrite Q2, G2; auto. lia.
Qed.
Lemma sample_grown m m1 : counts (nw_of g) tr -> (1 <= g_check g)%nat -> length (m_inits m) = length (m_samplers m) -> sample_round tr g m = Ok m1 ->
  Forall2 (grown (g_check g)) (m_samplers m) (m_samplers m1).
Proof.
  intros C K L H. unfold sample_round in H. apply bind_ok in H as ([inp st] & A & H). injection H as <-. cbn [m_samplers].
  replace (g_check g) with (g_check g - 1 + 1)%nat by lia. eapply grown_trans; [eapply first_grown; eauto|].
  replace (g_check g - 1 + 1 - 1)%nat with (g_check g - 1)%nat by lia. now apply domcmc_grown.
Qed.
Lemma Forall_grown k a b : Forall2 (grown k) a b -> Forall acc_ok a -> Forall acc_ok b.
Proof. induction 1 as [|x y a b G H IH]; intro F; inversion F; subst; constructor; [now apply G|auto]. Qed.
Lemma grown_length k n a b : Forall2 (grown k) a b -> Forall acc_ok a -> (forall s, In s a -> length (sp_chain s) = n) -> forall s, In s b -> length (sp_chain s) = (k + n)%nat.
Proof.
  induction 1 as [|x y a b G H IH]; intros F L s I; [destruct I|]. inversion F; subst. destruct I as [<-|I].
  - destruct G as [_ G]. rewrite G; auto. now rewrite (L x (or_introl eq_refl)).
  - apply IH; auto. intros t T. apply L. now right.
Qed.
Lemma samplers_ok inits prev r h m : counts (nw_of g) tr -> length inits = g_ensembles g -> (2 <= g_check g)%nat ->
  after tr acor g (start g inits prev) r h m -> Forall acc_ok (m_samplers m) /\ length (m_inits m) = length (m_samplers m).
Proof.
  intros C L K H. assert (length (m_inits m) = length (m_samplers m)) as LL.
  { destruct (inv_after tr acor g inits L K prev r h m H) as [_ _ [b [Hb [Hp [Hh _]]]]]. symmetry. eapply all_hold_length; eauto. }
  split; [|exact LL]. clear LL.
  assert (forall n x y, after tr acor g (start g inits prev) n x y -> Forall acc_ok (m_samplers y)) as G; [|eauto].
  assert (forall n x y z, after tr acor g (start g inits prev) n x y -> Forall acc_ok (m_samplers y) -> one_round tr acor g y = Ok z -> Forall acc_ok (m_samplers z)) as Step.
  { intros n x y z A F O. destruct (one_round_split _ _ _ _ _ O) as (m1 & m2 & S1 & S2 & S3).
    assert (length (m_inits y) = length (m_samplers y)) as LY.
    { destruct (inv_after tr acor g inits L K prev n x y A) as [_ _ [b [Hb [Hp [Hh _]]]]]. symmetry. eapply all_hold_length; eauto. }
    pose proof (Forall_grown _ _ _ (sample_grown _ _ C ltac:(lia) LY S1) F) as F1.
    destruct (check_frame _ _ _ _ S2) as (E & _). rewrite <- E in F1. clear - F1 S3. unfold burn_step in S3. destruct (_ && _); [|now injection S3 as <-].
    apply bind_ok in S3 as (i & _ & S3). injection S3 as <-. cbn [m_samplers]. apply Forall_forall. intros s I. apply in_map_iff in I as (t & <- & _). left. split; reflexivity. }
  intros n x y A. induction A as [|n x y y1 y2 A IH S1 S2 S3|n x y y1 y2 s A IH S1 S2 S3 S4].
  - cbn [start m_samplers]. apply Forall_forall. intros s I. apply repeat_spec in I as ->. left. split; reflexivity.
  - eapply Step; eauto.
  - eapply Step; eauto.
Qed.

Lemma sum_acc it l : rsum (map (fun a => (INR a / INR it)%R) l) = (INR (fold_right plus 0%nat l) / INR it)%R.
Proof.
  induction l as [|a l IH]; [unfold Rdiv; cbn; lra|]. cbn [map fold_right]. unfold rsum in *. cbn [fold_right]. rewrite IH, plus_INR. unfold Rdiv. lra.
Qed.
Lemma sum_le it l : Forall (fun a => (a <= it)%nat) l -> (fold_right plus 0%nat l <= length l * it)%nat.
Proof. induction 1; cbn [fold_right length]; nia. Qed.

Theorem accepted_share inits prev r h m m1 m2 : counts (nw_of g) tr -> length inits = g_ensembles g -> (2 <= g_check g)%nat -> (0 < nw_of g)%nat -> (0 < g_ensembles g)%nat ->
  after tr acor g (start g inits prev) r h m -> sample_round tr g m = Ok m1 -> convergence_check acor g m1 = Ok m2 ->
  exists it, (0 < it)%nat /\ (forall s, In s (m_samplers m2) -> length (sp_chain s) = it /\ length (sp_acc s) = nw_of g) /\
    accepted g m2 = (100 * (INR (all_accepted (m_samplers m2)) / INR (g_ensembles g * nw_of g * it)))%R /\ (0 <= accepted g m2 <= 100)%R.
Proof.
  intros C L K W E A S1 S2. destruct (samplers_ok _ _ _ _ _ C L K A) as [F LL].
  destruct (after_accounting _ _ _ _ _ _ _ _ L K A) as (LS & _ & _ & b & Hb & _ & _ & LEN).
  pose proof (sample_grown _ _ C ltac:(lia) LL S1) as G. pose proof (Forall_grown _ _ _ G F) as F1. pose proof (grown_length _ _ _ _ G F LEN) as LEN1.
  assert (length (m_samplers m1) = g_ensembles g) as LM. { rewrite <- LS. clear - G. induction G; cbn; auto. }
  destruct (check_frame _ _ _ _ S2) as (ES & _). rewrite <- ES in F1, LEN1, LM. set (it := (g_check g + (r - b) * g_check g)%nat) in *.
  assert (0 < it)%nat as IT by (unfold it; generalize ((r - b) * g_check g)%nat; intros; lia).
  assert (forall s, In s (m_samplers m2) -> length (sp_chain s) = it /\ length (sp_acc s) = nw_of g /\ Forall (fun a => (a <= it)%nat) (sp_acc s)) as P.
  { intros s I. pose proof (LEN1 s I) as LS1. rewrite Forall_forall in F1. destruct (F1 s I) as [[_ Z]|[Z1 Z2]]; [rewrite Z in LS1; cbn in LS1; lia|]. rewrite LS1 in Z2. auto. }
  assert (0 < INR it)%R as RI by now apply lt_0_INR. assert (0 < INR (nw_of g))%R as RW by now apply lt_0_INR. assert (0 < INR (g_ensembles g))%R as RE by now apply lt_0_INR.
  assert (accepted g m2 = 100 * (INR (all_accepted (m_samplers m2)) / INR (g_ensembles g * nw_of g * it)))%R as EQ.
  { unfold accepted. assert (rsum (map (fun s => mean (acceptance s) * 100) (m_samplers m2)) = 100 * INR (all_accepted (m_samplers m2)) / (INR (nw_of g) * INR it))%R as ->.
    { clear - P RI RW. induction (m_samplers m2) as [|s l IH]; [cbn; unfold Rdiv; lra|]. cbn [map]. unfold rsum in *. cbn [fold_right].
      rewrite IH by (intros t T; apply P; now right). destruct (P s (or_introl eq_refl)) as (P1 & P2 & _).
      unfold mean, acceptance, iteration. rewrite map_length, P1, P2, sum_acc. unfold all_accepted. cbn [fold_right]. rewrite plus_INR. field. lra. }
    rewrite !mult_INR. field. lra. }
  exists it. split; [exact IT|]. split; [intros s I; destruct (P s I) as (P1 & P2 & _); auto|]. split; [exact EQ|]. rewrite EQ.
  assert (all_accepted (m_samplers m2) <= g_ensembles g * nw_of g * it)%nat as LE.
  { rewrite <- LM. clear - P. induction (m_samplers m2) as [|s l IH]; cbn [all_accepted fold_right length]; [lia|]. destruct (P s (or_introl eq_refl)) as (_ & P2 & P3).
    apply sum_le in P3. rewrite P2 in P3. specialize (IH (fun t T => P t (or_intror T))). unfold all_accepted in IH. nia. }
  assert (0 < INR (g_ensembles g * nw_of g * it))%R as RD by (apply lt_0_INR; nia). apply le_INR in LE. pose proof (pos_INR (all_accepted (m_samplers m2))) as P0.
  assert (0 <= INR (all_accepted (m_samplers m2)) / INR (g_ensembles g * nw_of g * it) <= 1)%R; [|lra]. split.
  - apply Rmult_le_pos; [exact P0|left; now apply Rinv_0_lt_compat].
  - apply Rmult_le_reg_r with (INR (g_ensembles g * nw_of g * it)); [exact RD|]. unfold Rdiv. rewrite Rmult_assoc, Rinv_l by lra. lra.
Qed.

(** ** Speed *)
Theorem speed inits prev r h m d i m3 l : length inits = g_ensembles g -> (2 <= g_check g)%nat -> (0 < nw_of g)%nat -> (0 < g_ensembles g)%nat -> (0 < i)%R ->
  after tr acor g (start g inits prev) r h m -> round_shown tr acor g fmt d i m = Ok (m3, l) ->
  (forall s, In s (m_samplers m) -> sp_calls s = (r * g_check g)%nat) /\ (forall s, In s (m_samplers m3) -> sp_calls s = (S r * g_check g)%nat) /\
  exists rt, rate g i = Ok rt /\ (rt = INR (g_check g - 1) * INR (nw_of g * g_ensembles g) / i)%R /\ (rt < INR (g_check g) * INR (nw_of g * g_ensembles g) / i)%R.
Proof.
  intros L K W E I A H. destruct (after_next _ _ _ _ _ _ _ _ A (round_shown_state _ _ _ _ _ _ _ _ _ H)) as (h' & A').
  split; [apply (after_accounting _ _ _ _ _ _ _ _ L K A)|]. split; [apply (after_accounting _ _ _ _ _ _ _ _ L K A')|].
  unfold rate, reqb. destruct (Req_EM_T i 0); [lra|]. eexists. split; [reflexivity|].
  assert (0 < INR (nw_of g * g_ensembles g))%R as P by (apply lt_0_INR; nia). assert (0 < / i)%R as Q by now apply Rinv_0_lt_compat.
  rewrite minus_INR by lia. change (INR 1) with 1%R. rewrite Rmult_assoc, <- mult_INR. split; [reflexivity|].
  unfold Rdiv. apply Rmult_lt_compat_r; [exact Q|]. nra.
Qed.

(** ** The messages of the burn-in and of the end *)
Lemma burn_burned m m' : burn_step g m = Ok m' -> m_burned m = true -> m_burned m' = true.
Proof. unfold burn_step. intros H B. rewrite B in H. cbn [negb andb] in H. now injection H as <-. Qed.
Lemma sample_burned m m' : sample_round tr g m = Ok m' -> m_burned m' = m_burned m.
Proof. unfold sample_round. intro H. apply bind_ok in H as ([i s] & _ & H). now injection H as <-. Qed.
Theorem discard_once d clock n : forall r m m' l, rounds_shown tr acor g fmt d clock n r m = Ok (m', l) ->
  discards l = (if m_burned m' && negb (m_burned m) then [Printed discarding] else []) /\ (m_burned m = true -> m_burned m' = true).
Proof.
  induction n as [|n IH]; intros r m m' l H; cbn [rounds_shown] in H.
  - injection H as <- <-. split; [destruct (m_burned m); reflexivity|auto].
  - apply bind_ok in H as ([m1 l1] & A & H). destruct (round_shown_split _ _ _ _ _ _ _ _ _ A) as (n1 & rt & n2 & msg & S1 & _ & S2 & _ & S3 & ->).
    destruct (check_frame _ _ _ _ S2) as (_ & _ & _ & EB & _). pose proof (sample_burned _ _ S1) as ES. rewrite ES in EB.
    assert (forall q, discards (map Shown msg ++ q) = discards q) as DS.
    { intro q. clear. induction msg as [|s msg IH]; [reflexivity|exact IH]. }
    assert (m_burned m = true -> m_burned m1 = true) as MB by (intro; apply (burn_burned _ _ S3); congruence).
    rewrite EB in H. destruct (Nat.leb 2 (m_mixcount m1)).
    + injection H as <- <-. split; [|exact MB]. rewrite DS. destruct (m_burned m1 && negb (m_burned m)); reflexivity.
    + apply bind_ok in H as ([m2 l2] & B & H). injection H as <- <-. destruct (IH _ _ _ _ B) as [I1 I2]. split; [|auto].
      rewrite <- app_assoc, DS. unfold discards in *. rewrite filter_app, I1.
      destruct (m_burned m), (m_burned m1), (m_burned m2); cbn; try reflexivity; try (now discriminate (MB eq_refl)); now discriminate (I2 eq_refl).
Qed.

Lemma check_ismixed m m' : convergence_check acor g m = Ok m' -> m_ismixed m' = true ->
  skipped g m = false /\ forall s, convergence_calculate acor (g_th g) (nw_of g) (g_ndim g) (map sp_chain (m_samplers m)) (m_oac m) = Ok s -> st_mixed s = true.
Proof.
  rewrite skipped_flat. cbv zeta. unfold convergence_check. destruct (Nat.eqb (g_ensembles g) 0); [discriminate|]. cbv zeta. intros H M.
  destruct (_ && _) in H |- *; [injection H as <-; discriminate M|]. split; [reflexivity|]. intros s E. rewrite E in H. cbn [bind] in H.
  do 6 (apply bind_ok in H as (? & _ & H)). injection H as <-. exact M.
Qed.
Lemma check_unmixed m m' : convergence_check acor g m = Ok m' -> m_ismixed m' = false ->
  skipped g m = true \/ exists s, convergence_calculate acor (g_th g) (nw_of g) (g_ndim g) (map sp_chain (m_samplers m)) (m_oac m) = Ok s /\ st_mixed s = false.
Proof.
  rewrite skipped_flat. cbv zeta. unfold convergence_check. destruct (Nat.eqb (g_ensembles g) 0); [discriminate|]. cbv zeta. intros H M.
  destruct (_ && _) in H |- *; [now left|]. right. apply bind_ok in H as (s & E & H). exists s. split; [exact E|].
  do 6 (apply bind_ok in H as (? & _ & H)). injection H as <-. exact M.
Qed.
(** the last round did not compute the tests *)
Definition untested (m0 : mstate) (r : nat) (h : list bool) : Prop :=
  exists q m m1, r = S q /\ after tr acor g m0 q h m /\ sample_round tr g m = Ok m1 /\ skipped g m1 = true.
Theorem verdict inits prev n m tdiff : rounds tr acor g n (start g inits prev) = Ok m ->
  exists r h, after tr acor g (start g inits prev) r h m /\
    ((closing fmt tdiff m = [well_mixed fmt tdiff m; nl] /\ exists h', h = true :: true :: h') \/
     (closing fmt tdiff m = [nl; marginal] /\ exists h', h = true :: false :: h') \/
     (closing fmt tdiff m = [nl; not_mixed] /\ (h = [] \/ (exists h', h = false :: h') \/ ((exists h', h = true :: false :: h') /\ untested (start g inits prev) r h)))).
Proof.
  intro H. destruct (run_after _ _ _ _ _ _ _ H) as (r & h & A & LE & _ & _ & NO). exists r, h. split; [exact A|].
  destruct (after_hinv _ _ _ _ _ _ _ _ A) as (MC & _ & LAST).
  assert (m_ismixed m = true -> exists h', h = true :: h') as T.
  { intro M. inversion A as [|? ? m0 m1 ? A1 A2 A3 A4|? ? m0 m1 ? s A1 A2 A3 A4 A5]; subst; [discriminate M| |].
    - destruct (one_round_split _ _ _ _ _ A4) as (n1 & n2 & B1 & B2 & B3). rewrite A2 in B1. injection B1 as <-.
      rewrite (proj2 (burn_comp _ _ _ B3)) in M. destruct (check_ismixed _ _ B2 M) as [Q _]. congruence.
    - destruct (one_round_split _ _ _ _ _ A5) as (n1 & n2 & B1 & B2 & B3). rewrite A2 in B1. injection B1 as <-.
      rewrite (proj2 (burn_comp _ _ _ B3)) in M. destruct (check_ismixed _ _ B2 M) as [_ Q]. rewrite (Q _ A4). eauto. }
  assert (m_ismixed m = false -> h = [] \/ (exists h', h = false :: h') \/ untested (start g inits prev) r h) as F.
  { intro M. inversion A as [|? ? m0 m1 ? A1 A2 A3 A4|? ? m0 m1 ? s A1 A2 A3 A4 A5]; subst; [now left| |].
    - right. right. exists r0, m0, m1. auto.
    - right. left. destruct (one_round_split _ _ _ _ _ A5) as (n1 & n2 & B1 & B2 & B3). rewrite A2 in B1. injection B1 as <-.
      rewrite (proj2 (burn_comp _ _ _ B3)) in M. destruct (check_unmixed _ _ B2 M) as [Q|(s' & Q1 & Q2)]; [congruence|]. rewrite A4 in Q1. injection Q1 as <-. rewrite Q2. eauto. }
  unfold closing. destruct (m_ismixed m) eqn:M.
  - destruct (T eq_refl) as (h' & ->). destruct h' as [|[] h'].
    + destruct LAST as (x & E); [discriminate|]. destruct x as [|y [|z x]]; discriminate.
    + left. rewrite MC. cbn. eauto.
    + right. left. rewrite MC. cbn. eauto.
  - right. right. assert (m_mixcount m < 2)%nat as ML.
    { destruct (Nat.lt_ge_cases (m_mixcount m) 2) as [|G2]; [assumption|]. exfalso. rewrite MC in G2.
      destruct h as [|[] [|[] h]]; cbn in G2; try lia. destruct (F eq_refl) as [Q|[(h' & Q)|(q & m0 & m1 & -> & A1 & _)]]; try discriminate.
      apply (NO q _ m0 ltac:(lia) A1 h). reflexivity. }
    rewrite (proj2 (Nat.leb_gt 2 (m_mixcount m))) by lia. cbn [andb negb app]. split; [reflexivity|].
    destruct (F eq_refl) as [Q|[Q|Q]]; [auto|auto|]. destruct h as [|[] h]; [auto| |eauto]. right. right. split; [|exact Q].
    destruct h as [|[] h]; [|cbn in MC; lia|eauto]. destruct LAST as (x & E); [discriminate|]. destruct x as [|y [|z x]]; discriminate.
Qed.
End P.

(** ** One round of a run of two steps *)
Lemma one_and_a_half fmt clock : (forall r, clock r <> 0%R) -> exists m bar rest l,
  rounds_shown tr1 acor1 (g_never 2 3) fmt Terminal clock 1 0 (start (g_never 2 3) [p_a] None) =
    Ok (m, Shown ((bar ++ " 6/4 (150.0%) steps complete; ") ++ nl ++ rest) :: l) /\ num_run (g_never 2 3) = Ok 1%Z /\
  bar_of 75 50 bar /\ String.length bar = 77%nat.
Proof.
  intro C. destruct (never_one_round tr1 2 3 ltac:(lia) ltac:(lia) eq_refl) as (m & df & A & _).
  unfold mcmc in A. change (num_run (g_never 2 3)) with (Ok 1%Z) in A. cbn [bind] in A. change (Z.to_nat 1) with 1%nat in A.
  apply bind_ok in A as (m' & R1 & _). clear df.
  assert (total (g_never 2 3) <> 0%Z) as T by (cbv; discriminate).
  destruct (shown_ok tr1 acor1 (g_never 2 3) fmt Terminal clock 1 T C 0 _ _ R1) as (l & E).
  pose proof (discard_once _ _ _ _ _ _ _ _ _ _ _ E) as [D _].
  pose proof E as E0. cbn [rounds_shown] in E0. apply bind_ok in E0 as ([m1 l1] & S1 & E0).
  assert (m1 = m' /\ l1 = l) as [-> ->].
  { destruct (Nat.leb 2 (m_mixcount m1)); [now injection E0 as <- <-|]. cbn [bind] in E0. rewrite app_nil_r in E0. now injection E0 as <- <-. }
  destruct (line tr1 acor1 (g_never 2 3) fmt [p_a] None 0 [] _ Terminal _ _ _ eq_refl ltac:(cbn; lia) ltac:(cbn; lia) ltac:(cbv; lia) ltac:(cbv; lia) (after_0 _ _ _ _) S1)
    as (bar & k & pct & rest & l' & EL & PS & BO & NE & _).
  cbn [g_never g_check g_nrun Nat.mul Nat.add INR] in PS, NE.
  assert (k = 75%nat) as ->.
  { apply INR_eq. rewrite (INR_IZR_INZ 75). change (Z.of_nat 75) with 75%Z.
    rewrite INR_IZR_INZ in *. assert (Z.of_nat k = 75)%Z as ->; [|reflexivity].
    replace (50 * ((1 + 1 + 1) / 2))%R with 75%R in NE by lra. rewrite <- minus_IZR in NE. rewrite <- abs_IZR in NE.
    assert (Z.abs (Z.of_nat k - 75) < 1)%Z by (apply lt_IZR; lra). lia. }
  assert (pct = "150.0") as ->.
  { destruct PS as (n & q & N & Q & -> & X). replace (100 * ((1 + 1 + 1) / 2))%R with (IZR 1500 / 10)%R in X by lra.
    replace (IZR (10 * n + q) / 10 - IZR 1500 / 10)%R with (IZR (10 * n + q - 1500) * / 10)%R in X by (rewrite minus_IZR; lra).
    rewrite Rabs_mult, <- abs_IZR, (Rabs_pos_eq (/ 10)) in X by lra.
    assert (Z.abs (10 * n + q - 1500) < 1)%Z by (apply lt_IZR; lra). assert (n = 150 /\ q = 0)%Z as [-> ->] by lia. reflexivity. }
  exists m', bar, rest, l'. split; [|split; [reflexivity|split; [exact BO|exact (bar_length _ _ _ BO)]]].
  rewrite E, EL. reflexivity.
Qed.

(** ** Half of the proposals are accepted *)
Definition tr_half (e c : nat) (p : ens) : sample * list nat := (fst (tr1 e c p), [1; 0]%nat).
Lemma half_accepted : counts (nw_of (g_never 2 3)) tr_half /\ exists m1 m2,
  sample_round tr_half (g_never 2 3) (start (g_never 2 3) [p_a] None) = Ok m1 /\ convergence_check acor1 (g_never 2 3) m1 = Ok m2 /\
  accepted (g_never 2 3) m2 = 50%R.
Proof.
  assert (counts (nw_of (g_never 2 3)) tr_half) as C by (intros e c p; cbn; split; [reflexivity|repeat constructor]).
  split; [exact C|]. destruct (never_one_round tr_half 2 3 ltac:(lia) ltac:(lia) eq_refl) as (m & df & A & _).
  unfold mcmc in A. change (num_run (g_never 2 3)) with (Ok 1%Z) in A. cbn [bind] in A. change (Z.to_nat 1) with 1%nat in A.
  apply bind_ok in A as (m' & R1 & _). cbn [rounds] in R1. apply bind_ok in R1 as (m3 & O & _).
  destruct (one_round_split _ _ _ _ _ O) as (m1 & m2 & S1 & S2 & _). exists m1, m2. split; [exact S1|]. split; [exact S2|].
  destruct (accepted_share tr_half acor1 (g_never 2 3) [p_a] None 0 [] _ m1 m2 C eq_refl ltac:(cbn; lia) ltac:(cbv; lia) ltac:(cbv; lia) (after_0 _ _ _ _) S1 S2) as (it & I & P & E & _).
  rewrite E. destruct (check_frame _ _ _ _ S2) as (ES & _). rewrite ES in *. cbv [sample_round start] in S1. cbn in S1. injection S1 as <-. cbn in *.
  destruct (P _ (or_introl eq_refl)) as [PI _]. cbn in PI. subst it. cbn. lra.
Qed.
Lemma same_example : total (g_never 2 3) = 4%Z /\ exists m, rounds tr1 acor1 (g_never 2 3) 1 (start (g_never 2 3) [p_a] None) = Ok m.
Proof.
  split; [reflexivity|]. destruct (never_one_round tr1 2 3 ltac:(lia) ltac:(lia) eq_refl) as (m & df & A & _).
  unfold mcmc in A. change (num_run (g_never 2 3)) with (Ok 1%Z) in A. cbn [bind] in A. change (Z.to_nat 1) with 1%nat in A.
  apply bind_ok in A as (m' & R1 & _). eauto.
Qed.

Lemma append_ass' a b c : ((a ++ b) ++ c = a ++ b ++ c)%string.
Proof. induction a; cbn; congruence. Qed.
(** the numbers of a message are those of the state after the round's test *)
Theorem numbers_shown tr acor g fmt d i m m3 l s : round_shown tr acor g fmt d i m = Ok (m3, l) -> In (Shown s) l ->
  exists m1 m2 a sep z, sample_round tr g m = Ok m1 /\ convergence_check acor g m1 = Ok m2 /\ (sep = "" \/ sep = nl) /\
  s = a ++ "Running " ++ fmt ".2f" (Fin ((INR (g_check g) - 1) * INR (nw_of g) * INR (g_ensembles g) / i)) ++ " steps/s; Mean acceptance rate = " ++
      fmt "3.1f" (Fin (accepted g m2)) ++ "%; Min Auto Factor = " ++ fmt "3.0f" (m_minafactor m2) ++ "; " ++ sep ++
      "Max Auto Relative-Change = " ++ fmt "5.3" (m_maxarchange m2) ++ "; Min Tz = " ++ fmt ".1f" (m_mintz m2) ++ "; Max G-R = " ++ fmt "5.3f" (m_maxgr m2) ++ z.
Proof.
  intros E I. unfold round_shown in E. destruct (sample_round tr g m) as [m1|] eqn:E1; [|discriminate]. cbn [bind] in E.
  destruct (rate g i) as [rt|] eqn:E2; [|discriminate]. cbn [bind] in E. destruct (convergence_check acor g m1) as [m2|] eqn:E3; [|discriminate]. cbn [bind] in E.
  destruct (status g fmt d rt m2) as [msg|] eqn:E4; [|discriminate]. cbn [bind] in E. destruct (burn_step g m2) as [mb|]; [|discriminate]. cbn [bind] in E. injection E as <- <-.
  assert (rt = (INR (g_check g) - 1) * INR (nw_of g) * INR (g_ensembles g) / i)%R as <- by (unfold rate in E2; destruct (reqb i 0); congruence).
  apply in_app_iff in I. destruct I as [I|I]; [|destruct (_ && _); [destruct I as [I|[]]; discriminate|destruct I]].
  apply in_map_iff in I as (s' & K & I). injection K as ->. exists m1, m2.
  destruct d; cbn [status] in E4.
  - injection E4 as <-. destruct I.
  - injection E4 as <-. destruct I as [<-|[]]. exists (steps_text g m2), "", cr. repeat split; auto. unfold rest_text. repeat (rewrite append_ass' || cbn [append]). reflexivity.
  - destruct (progress_bar _ _ _) as [bar|]; [|discriminate]. cbn [bind] in E4. injection E4 as <-. destruct I as [<-|[]].
    exists ((bar ++ " " ++ steps_text g m2) ++ nl), nl, nl. repeat split; auto. unfold rest_text. repeat (rewrite append_ass' || cbn [append]). reflexivity.
Qed.
Lemma numbers_example : exists m3 s l, round_shown tr1 acor1 (g_never 2 3) (fun _ _ => "x"%string) Notebook 1 (start (g_never 2 3) [p_a] None) = Ok (m3, Shown s :: l).
Proof.
  destruct (never_one_round tr1 2 3 ltac:(lia) ltac:(lia) eq_refl) as (m & df & A & _).
  unfold mcmc in A. change (num_run (g_never 2 3)) with (Ok 1%Z) in A. cbn [bind] in A. change (Z.to_nat 1) with 1%nat in A.
  apply bind_ok in A as (m' & R1 & _). clear df.
  assert (total (g_never 2 3) <> 0%Z) as T by (cbv; discriminate).
  destruct (shown_ok tr1 acor1 (g_never 2 3) (fun _ _ => "x"%string) Notebook (fun _ => 1%R) 1 T ltac:(intro; lra) 0 _ _ R1) as (l & E).
  cbn [rounds_shown] in E. apply bind_ok in E as ([m1 l1] & S1 & _). rewrite S1. exists m1.
  destruct (line tr1 acor1 (g_never 2 3) (fun _ _ => "x"%string) [p_a] None 0 [] _ Notebook _ _ _ eq_refl ltac:(cbn; lia) ltac:(cbn; lia) ltac:(cbv; lia) ltac:(cbv; lia) (after_0 _ _ _ _) S1)
    as (pct & rest & l' & -> & _). eauto.
Qed.
