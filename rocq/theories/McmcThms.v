(** Step accounting, halting, trajectories, rows and the Gelman-Rubin statistic. *)
From Coq Require Import Reals Arith ZArith Bool Lia Lra List.
From Verif Require Import Py PyFloat PyFacts PyFloatFacts Mcmc McmcSpec McmcProofs.
Import ListNotations.
Open Scope R_scope.

(** ** C33 *)

Section P.
Variable tr : nat -> nat -> ens -> sample * list nat.
Variable acor : list (list sample) -> list ext.
Variable g : mcfg.

Lemma after_accounting inits prev r h m : length inits = g_ensembles g -> (2 <= g_check g)%nat ->
  after tr acor g (start g inits prev) r h m ->
  length (m_samplers m) = g_ensembles g /\
  (forall s, In s (m_samplers m) -> sp_calls s = (r * g_check g)%nat) /\
  ((1 <= r)%nat -> m_ncomplete m = (r * g_check g * nw_of g * g_ensembles g)%nat) /\
  exists b, (b <= r)%nat /\ (m_burned m = true <-> (1 <= b)%nat) /\ m_nburn m = (b * g_check g * nw_of g * g_ensembles g)%nat /\
    forall s, In s (m_samplers m) -> length (sp_chain s) = ((r - b) * g_check g)%nat.
Proof.
  intros Hl Hci H. destruct (inv_after tr acor g inits Hl Hci prev r h m H) as [_ I2 [b [Hb [Hp [Hh [H0 [H1 _]]]]]]].
  assert (length (m_samplers m) = length (m_inits m)) as L1 by (eapply all_hold_length; eauto).
  assert (length (m_inits m) = g_ensembles g) as L2 by (rewrite <- Hl; apply Hp).
  assert (forall s, In s (m_samplers m) -> exists e p, holds tr g e (r - b) (b * g_check g) p s) as Hs.
  { intros s Hs. apply In_nth_error in Hs as [i Hi].
    destruct (nth_error (m_inits m) i) as [p|] eqn:E.
    - destruct (all_hold_nth tr g 0 _ _ _ _ Hh i p E) as [s' [A B]]. rewrite Hi in A. injection A as <-. eauto.
    - apply nth_error_None in E. assert (i < length (m_samplers m))%nat by (apply nth_error_Some; congruence). lia. }
  split; [congruence|]. split.
  { intros s Q. destruct (Hs s Q) as [e [p [_ ->]]]. nia. }
  split; [exact I2|]. exists b. split; [exact Hb|]. split.
  { split; [intro Q; now destruct (H1 Q)|]. intro Q. destruct (m_burned m); auto. destruct (H0 eq_refl). lia. }
  split.
  { destruct (m_burned m); [apply (H1 eq_refl)|]. destruct (H0 eq_refl) as [-> ->]. reflexivity. }
  intros s Q. destruct (Hs s Q) as [e [p [-> _]]]. apply stored_length. lia.
Qed.

(** the number of rounds is nrun/(checkinterval-1) rounded to a nearest integer *)
Lemma round_div_near a b : (0 < b)%Z -> (2 * Z.abs (round_div a b * b - a) <= b)%Z.
Proof.
  intro H. unfold round_div. pose proof (Z.div_mod a b ltac:(lia)). pose proof (Z.mod_pos_bound a b H).
  rewrite (Z.abs_eq b) by lia. set (q := (a / b)%Z) in *.
  destruct (Z.compare_spec (2 * (a - q * b)) b); [destruct (Z.even q)| |]; nia.
Qed.
Lemma num_run_near n : (2 <= g_check g)%nat -> num_run g = Ok n ->
  (2 * Z.abs (n * (Z.of_nat (g_check g) - 1) - g_nrun g) <= Z.of_nat (g_check g) - 1)%Z.
Proof.
  intros H. unfold num_run. destruct (Z.eqb_spec (Z.of_nat (g_check g) - 1) 0); [lia|].
  destruct (Z.ltb_spec (Z.of_nat (g_check g) - 1) 0); [lia|]. intro E. injection E as <-. apply round_div_near. lia.
Qed.

(** ** C34 *)

Fixpoint leading (h : list bool) : nat := match h with true :: h' => S (leading h') | _ => 0%nat end.

Lemma skipped_flat m : skipped g m = 
  let chains := map sp_chain (m_samplers m) in
  let nc := (m_nburn m + nw_of g * length (concat chains))%nat in
  let pcomplete := INR nc / totsteps g * 100 in
  let last_n := (nw_of g * match rev chains with c :: _ => length c | [] => 0 end)%nat in
  rltb pcomplete (g_minpercent g) && rleb (INR last_n) (g_minsteps g * INR (nw_of g)).
Proof.
  unfold skipped. cbv zeta.
  assert (forall l, fold_right (fun s n => (length (sp_chain s) + n)%nat) 0%nat l = length (concat (map sp_chain l))) as E.
  { induction l; cbn; auto. now rewrite app_length, IHl. }
  rewrite E. replace (match rev (m_samplers m) with s :: _ => length (sp_chain s) | [] => 0%nat end)
    with (match rev (map sp_chain (m_samplers m)) with c :: _ => length c | [] => 0%nat end); auto.
  rewrite <- map_rev. now destruct (rev (m_samplers m)).
Qed.

Lemma check_skipped m m' : convergence_check acor g m = Ok m' -> skipped g m = true ->
  m_oac m' = m_oac m /\ m_mixcount m' = m_mixcount m.
Proof.
  rewrite skipped_flat. cbv zeta. unfold convergence_check. destruct (Nat.eqb (g_ensembles g) 0); [discriminate|].
  cbv zeta. intros H E. rewrite E in H. injection H as <-. auto.
Qed.
Lemma check_tested m m' : convergence_check acor g m = Ok m' -> skipped g m = false ->
  exists s, convergence_calculate acor (g_th g) (nw_of g) (g_ndim g) (map sp_chain (m_samplers m)) (m_oac m) = Ok s /\
   m_oac m' = Some (st_acor s) /\ m_mixcount m' = (if st_mixed s then S (m_mixcount m) else 0%nat).
Proof.
  rewrite skipped_flat. cbv zeta. unfold convergence_check. destruct (Nat.eqb (g_ensembles g) 0); [discriminate|].
  cbv zeta. intros H E. rewrite E in H. apply bind_ok in H as [s [Hs H]]. exists s. split; [exact Hs|].
  binds H. injection H as <-. auto.
Qed.
Lemma burn_frame m m' : burn_step g m = Ok m' -> m_oac m' = m_oac m /\ m_mixcount m' = m_mixcount m.
Proof.
  unfold burn_step. intro H. destruct (_ && _); [|now injection H as <-].
  binds H. injection H as <-. auto.
Qed.
Lemma sample_frame m m' : sample_round tr g m = Ok m' -> m_oac m' = m_oac m /\ m_mixcount m' = m_mixcount m.
Proof. unfold sample_round. intro H. binds H. destruct a as [inp st]. injection H as <-. auto. Qed.

Lemma one_round_split m m2 : one_round tr acor g m = Ok m2 ->
  exists m1 m1', sample_round tr g m = Ok m1 /\ convergence_check acor g m1 = Ok m1' /\ burn_step g m1' = Ok m2.
Proof.
  unfold one_round, round_to_save. intro H. apply bind_ok in H as [m1' [H B]]. apply bind_ok in H as [m1 [A C]]. eauto.
Qed.

(** the first comparison of autocorrelation times never passes *)
Lemma py_max_in l x : py_max l = Ok x -> In x l.
Proof.
  destruct l as [|y l]; [discriminate|]. cbn [py_max]. intro H. injection H as <-. revert y.
  induction l as [|z l IH]; intro y; [left; reflexivity|].
  cbn [fold_left]. destruct (IH (if ext_ltb y z then z else y)) as [A|A].
  - destruct (ext_ltb y z); [right; left|left]; congruence.
  - right. right. exact A.
Qed.
Lemma arch1_zero a t : ext_ltb (arch1 a (Fin 0)) t = false.
Proof.
  assert (forall r, 0 <= r -> ext_ltb (inf_of r) t = false) as G.
  { intros r Hr. unfold inf_of. destruct (rltb 0 r); [destruct t; reflexivity|].
    destruct (rltb r 0) eqn:E; [|destruct t; reflexivity]. exfalso. revert E. unfold rltb. destruct (Rlt_dec r 0); [lra|discriminate]. }
  assert (reqb 0 0 = true) as Z by (unfold reqb; destruct (Req_EM_T 0 0); congruence).
  assert (rltb 0 0 = false) as Z' by (unfold rltb; destruct (Rlt_dec 0 0); [lra|reflexivity]).
  unfold arch1, ext_sub, ext_opp, ext_add. destruct a as [a| | |]; unfold ext_div; rewrite ?Z, ?Z'; try (destruct t; reflexivity).
  apply G. apply Rabs_pos.
Qed.
Lemma first_test_fails th nw ndim chains s : convergence_calculate acor th nw ndim chains None = Ok s -> st_mixed s = false.
Proof.
  unfold convergence_calculate. destruct (negb _); [discriminate|]. cbv zeta. destruct (Nat.leb _ 1); [discriminate|].
  destruct (if Nat.eqb (length chains) 1 then _ else _) as [tz minTz]. intro H.
  apply bind_ok in H as [mtz [_ H]]. apply bind_ok in H as [mgr [_ H]]. apply bind_ok in H as [maf [_ H]]. apply bind_ok in H as [mar [Hm H]].
  injection H as <-. cbn [st_mixed]. apply andb_false_iff. right.
  unfold np_max in Hm. destruct (existsb is_nan _); [injection Hm as <-; destruct (th_maxAr th); reflexivity|].
  apply py_max_in in Hm. cbn [archange] in Hm. apply in_map_iff in Hm as [a [<- _]]. apply arch1_zero.
Qed.

Definition hinv (h : list bool) (m : mstate) : Prop :=
  m_mixcount m = leading h /\ (h = [] -> m_oac m = None) /\ (h <> [] -> exists h', h = h' ++ [false]).

Lemma after_hinv inits prev r h m : after tr acor g (start g inits prev) r h m -> hinv h m.
Proof.
  intro H. induction H as [|r h m m1 m2 H [I1 [I2 I3]] Hs Hk Ho|r h m m1 m2 s H [I1 [I2 I3]] Hs Hk Hc Ho].
  - repeat split. now intros [].
  - destruct (one_round_split _ _ Ho) as [n1 [n2 [A [B C]]]]. rewrite Hs in A. injection A as <-.
    destruct (check_skipped _ _ B Hk) as [E1 E2]. destruct (burn_frame _ _ C) as [E3 E4]. destruct (sample_frame _ _ Hs) as [E5 E6].
    unfold hinv. split; [congruence|]. split; [|exact I3]. intro Q. rewrite E3, E1, E5. auto.
  - destruct (one_round_split _ _ Ho) as [n1 [n2 [A [B C]]]]. rewrite Hs in A. injection A as <-.
    destruct (check_tested _ _ B Hk) as [s' [Hc' [E1 E2]]]. rewrite Hc in Hc'. injection Hc' as <-.
    destruct (burn_frame _ _ C) as [E3 E4]. destruct (sample_frame _ _ Hs) as [E5 E6].
    unfold hinv. split; [|split; [discriminate|]].
    + rewrite E4, E2, E6, I1. destruct (st_mixed s); reflexivity.
    + intros _. destruct h as [|x h].
      * exists []. rewrite E5, (I2 eq_refl) in Hc. apply first_test_fails in Hc. now rewrite Hc.
      * destruct I3 as [h' E]; [discriminate|]. exists (st_mixed s :: h'). now rewrite E.
Qed.

Lemma after_det m0 r : forall h m h' m', after tr acor g m0 r h m -> after tr acor g m0 r h' m' -> h = h' /\ m = m'.
Proof.
  induction r as [|r IH]; intros h m h' m' H H'.
  - inversion H; inversion H'; subst. auto.
  - inversion H as [|? ? n n1 ? A1 A2 A3 A4|? ? n n1 ? s A1 A2 A3 A4 A5]; inversion H' as [|? ? k k1 ? B1 B2 B3 B4|? ? k k1 ? s' B1 B2 B3 B4 B5]; subst;
      destruct (IH _ _ _ _ A1 B1) as [-> ->]; rewrite A2 in B2; injection B2 as <-; try congruence.
    + split; congruence.
    + rewrite A4 in B4. injection B4 as <-. split; congruence.
Qed.

Lemma rounds_after inits prev m' : forall n r h m, after tr acor g (start g inits prev) r h m ->
  rounds tr acor g n m = Ok m' ->
  exists r' h', after tr acor g (start g inits prev) r' h' m' /\ (r <= r' <= r + n)%nat /\
    ((r' < r + n)%nat -> exists h'', h' = true :: true :: h'') /\
    (forall q hq mq, (r < q < r')%nat -> after tr acor g (start g inits prev) q hq mq -> (leading hq < 2)%nat).
Proof.
  induction n as [|n IH]; intros r h m H Hr; cbn [rounds] in Hr.
  - injection Hr as <-. exists r, h. split; [exact H|]. split; [lia|]. split; [lia|]. intros; lia.
  - apply bind_ok in Hr as [m1 [Ho Hr]].
    assert (exists h1, after tr acor g (start g inits prev) (S r) h1 m1) as [h1 H1].
    { destruct (one_round_split _ _ Ho) as [n1 [n2 [A [B C]]]]. destruct (skipped g n1) eqn:Hk.
      - exists h. eapply after_skip; eauto.
      - destruct (check_tested _ _ B Hk) as [s [Hc _]]. exists (st_mixed s :: h). eapply after_test; eauto. }
    pose proof (proj1 (after_hinv _ _ _ _ _ H1)) as E.
    destruct (Nat.leb_spec 2 (m_mixcount m1)) as [Hm|Hm]; rewrite E in Hm.
    + injection Hr as <-. exists (S r), h1. split; [exact H1|]. split; [lia|]. split; [|intros; lia].
      intros _. destruct h1 as [|[] [|[] h1]]; cbn in Hm; try lia. eauto.
    + destruct (IH (S r) h1 m1 H1 Hr) as [r' [h' [A [B [C D]]]]]. exists r', h'. split; [exact A|]. split; [lia|]. split.
      * intro Q. apply C. lia.
      * intros q hq mq Hq Hqa. destruct (Nat.eq_dec q (S r)) as [->|Hne]; [|apply (D q hq mq); auto; lia].
        destruct (after_det _ _ _ _ _ _ H1 Hqa) as [<- _]. exact Hm.
Qed.

Lemma run_after inits prev n m : rounds tr acor g n (start g inits prev) = Ok m ->
  exists r h, after tr acor g (start g inits prev) r h m /\ (r <= n)%nat /\
    ((r < n)%nat -> exists h', h = true :: true :: h') /\
    (h <> [] -> exists h', h = (h' ++ [false])%list) /\
    (forall q hq mq, (q < r)%nat -> after tr acor g (start g inits prev) q hq mq -> forall h', hq <> true :: true :: h').
Proof.
  intro H. destruct (rounds_after inits prev m n 0 [] _ (after_0 _ _ _ _) H) as [r [h [A [B [C D]]]]].
  exists r, h. split; [exact A|]. split; [lia|]. split; [exact C|]. split; [apply (after_hinv _ _ _ _ _ A)|].
  intros q hq mq Hq Hqa h' ->. destruct q as [|q]; [inversion Hqa|].
  specialize (D (S q) _ mq ltac:(lia) Hqa). cbn in D. lia.
Qed.

(** ** C35 *)

Lemma nth_error_S {A} (x : A) l n : nth_error (x :: l) (S n) = nth_error l n.
Proof. reflexivity. Qed.
Lemma path_nth e n : forall c p i, (i < n)%nat ->
  nth_error (path tr e n c p) i = Some (fst (tr e (c + i) (match i with O => p | S i' => match nth_error (path tr e n c p) i' with Some x => s_pos x | None => p end end))).
Proof.
  induction n as [|n IH]; intros c p i Hi; [lia|]. destruct i as [|i].
  - cbn. now rewrite Nat.add_0_r.
  - cbn [path nth_error]. rewrite IH by lia. destruct i as [|i]; cbn [nth_error].
    + now rewrite Nat.add_1_r, Nat.add_0_r.
    + replace (S c + S i)%nat with (c + S (S i))%nat by lia.
      destruct (nth_error (path tr e n (S c) (s_pos (fst (tr e c p)))) i) eqn:E; [reflexivity|].
      apply nth_error_None in E. rewrite path_length in E. lia.
Qed.
Lemma end_of_nth p l : l <> [] -> match nth_error l (length l - 1) with Some x => end_of p l = s_pos x | None => False end.
Proof.
  intro H. destruct l as [|x l _] using rev_ind; [easy|]. rewrite app_length. cbn [length].
  replace (length l + 1 - 1)%nat with (length l) by lia. rewrite nth_error_app2, Nat.sub_diag by lia. cbn.
  unfold end_of. now rewrite rev_app_distr.
Qed.

(** the position a stored sample was generated from: that of the preceding stored
    sample, except that the second sample of a round goes back by two *)
Definition origin (ci : nat) (l : list sample) (p : ens) (i : nat) : ens :=
  let j := if Nat.eqb (i mod ci) 1 then (S i - 2)%nat else i in
  match j with O => p | S j' => match nth_error l j' with Some x => s_pos x | None => p end end.

Lemma stored_origin e ci k c p i : (2 <= ci)%nat -> (i < k * ci)%nat ->
  nth_error (stored tr e ci k c p) i = Some (fst (tr e (c + i) (origin ci (stored tr e ci k c p) p i))).
Proof.
  intro H2. revert c p i. induction k as [|k IH]; intros c p i Hi; [lia|].
  cbn [stored]. set (P := path tr e (ci - 1) (S c) p). set (q := end_of p P).
  assert (length P = (ci - 1)%nat) as LP by apply path_length.
  assert (P <> []) as NP by (intro E; rewrite E in LP; cbn in LP; lia).
  pose proof (end_of_nth p P NP) as EQ. fold q in EQ. rewrite LP in EQ.
  destruct (Nat.lt_ge_cases i ci) as [Hs|Hs].
  - (* first round *) unfold origin. rewrite Nat.mod_small by exact Hs. destruct i as [|[|i]].
    + cbn. now rewrite Nat.add_0_r.
    + rewrite nth_error_S. cbn [Nat.eqb Nat.sub]. rewrite nth_error_app1 by lia. unfold P. rewrite path_nth by lia. now rewrite Nat.add_0_r, Nat.add_1_r.
    + cbn [Nat.eqb]. rewrite !nth_error_S. rewrite !nth_error_app1 by lia. unfold P. rewrite path_nth by lia.
      destruct (nth_error (path tr e (ci - 1) (S c) p) i) eqn:E; [replace (c + S (S i))%nat with (S c + S i)%nat by lia; reflexivity|].
      apply nth_error_None in E. fold P in E. lia.
  - (* later rounds *)
    assert (exists j, i = (ci + j)%nat) as [j ->] by (exists (i - ci)%nat; lia).
    assert (forall t, nth_error (fst (tr e c p) :: P ++ stored tr e ci k (c + ci) q) (ci + t) = nth_error (stored tr e ci k (c + ci) q) t) as Sh.
    { intro t. replace (ci + t)%nat with (S (ci - 1 + t)) by lia. rewrite nth_error_S. rewrite nth_error_app2 by lia. f_equal. lia. }
    rewrite Sh, IH by lia. replace (c + ci + j)%nat with (c + (ci + j))%nat by lia. do 3 f_equal.
    unfold origin. replace ((ci + j) mod ci)%nat with (j mod ci)%nat
      by (replace (ci + j)%nat with (j + 1 * ci)%nat by lia; now rewrite Nat.mod_add by lia).
    assert (forall t, (t <= j)%nat -> match t with O => q | S j' => match nth_error (stored tr e ci k (c + ci) q) j' with Some x => s_pos x | None => q end end
       = match (ci + t)%nat with O => p | S j' => match nth_error (fst (tr e c p) :: P ++ stored tr e ci k (c + ci) q) j' with Some x => s_pos x | None => p end end) as G.
    { intros [|t] Ht.
      - rewrite Nat.add_0_r. destruct ci as [|ci']; [lia|]. destruct ci' as [|ci']; [lia|]. rewrite nth_error_S.
        rewrite nth_error_app1 by lia. replace (S (S ci') - 1 - 1)%nat with ci' in EQ by lia.
        destruct (nth_error P ci'); [exact EQ|contradiction].
      - replace (ci + S t)%nat with (S (ci + t)) by lia. rewrite Sh.
        assert (t < length (stored tr e ci k (c + ci) q))%nat as Lt by (rewrite stored_length; lia).
        apply nth_error_Some in Lt. destruct (nth_error (stored tr e ci k (c + ci) q) t); [reflexivity|easy]. }
    destruct (Nat.eqb_spec (j mod ci) 1) as [E|E].
    + assert (1 <= j)%nat by (destruct j; [rewrite Nat.mod_0_l in E; lia|lia]).
      rewrite G by lia. replace (S (ci + j) - 2)%nat with (ci + (S j - 2))%nat by lia. reflexivity.
    + apply G. lia.
Qed.


Lemma chains_trajectory inits prev r h m : length inits = g_ensembles g -> (2 <= g_check g)%nat ->
  after tr acor g (start g inits prev) r h m -> (1 <= r)%nat ->
  exists chains b, m_chains m = Some chains /\ length chains = g_ensembles g /\ (b <= r)%nat /\ (m_burned m = true <-> (1 <= b)%nat) /\
    m_nburn m = (b * g_check g * nw_of g * g_ensembles g)%nat /\
    forall e p0 c, nth_error inits e = Some p0 -> nth_error chains e = Some c ->
      let d := if (b <? r)%nat then b else 0%nat in
      let p := pos_after tr e (g_check g) d 0 p0 in
      length c = ((r - d) * g_check g)%nat /\
      forall i, (i < length c)%nat -> nth_error c i = Some (fst (tr e (d * g_check g + i)%nat (origin (g_check g) c p i))).
Proof.
  intros Hl Hci H Hr. destruct (inv_after tr acor g inits Hl Hci prev r h m H) as [_ _ [b [Hb [Hp [Hh [H0 [H1 Hc]]]]]]].
  destruct (Hc Hr) as [chains [E1 E2]]. exists chains, b. split; [exact E1|].
  assert (length (m_inits m) = g_ensembles g) as L2 by (rewrite <- Hl; apply Hp).
  split. { destruct (b <? r)%nat; destruct E2 as [-> _]; [exact L2|exact Hl]. }
  split; [exact Hb|]. split.
  { split; [intro Q; now destruct (H1 Q)|]. intro Q. destruct (m_burned m); auto. destruct (H0 eq_refl). lia. }
  split. { destruct (m_burned m); [apply (H1 eq_refl)|]. destruct (H0 eq_refl) as [-> ->]. reflexivity. }
  intros e p0 c Hi Hn. cbv zeta.
  assert (c = stored tr e (g_check g) (r - (if (b <? r)%nat then b else 0)) ((if (b <? r)%nat then b else 0) * g_check g)
              (pos_after tr e (g_check g) (if (b <? r)%nat then b else 0%nat) 0 p0)) as ->.
  { destruct (b <? r)%nat.
    - destruct Hp as [_ Hp]. destruct E2 as [_ E2]. specialize (E2 e _ (Hp e p0 Hi)). rewrite Hn in E2. now injection E2.
    - destruct E2 as [_ E2]. specialize (E2 e _ Hi). rewrite Hn in E2. injection E2 as ->. now rewrite Nat.sub_0_r. }
  split; [apply stored_length; lia|]. intros i Hlt. rewrite stored_length in Hlt by lia. apply stored_origin; auto.
Qed.
End P.

(** ** Concrete runs *)

(** a transition that adds 1 to every coordinate *)
Definition tr1 (e c : nat) (p : ens) : sample * list nat := (mkS (map (map (Rplus 1)) p) (map (fun _ => Fin 0) p), []).
Definition th0 : thresholds := mkT (Fin 40) (Fin (3 / 100)) (Fin (101 / 100)) (Fin 1000).
(** the convergence tests are never computed *)
Definition g_never (nrun : Z) (ci : nat) : mcfg := mkCfg 2 1 nrun 1 ci th0 (Fin 25) (Fin (103 / 100)) 1000 1000 1.
(** they are computed in every round; burn-in ends in the first round *)
Definition g_always : mcfg := mkCfg 2 1 1 1 2 th0 (Fin 1) (Fin (103 / 100)) 1000 0 1.
Definition acor1 (_ : list (list sample)) : list ext := [Fin 1].
Definition p_a : ens := [[0]; [5]].

Lemma rltb_t a b : a < b -> rltb a b = true. Proof. unfold rltb. destruct (Rlt_dec a b); tauto. Qed.
Lemma rltb_f a b : b <= a -> rltb a b = false. Proof. unfold rltb. destruct (Rlt_dec a b); [lra|reflexivity]. Qed.
Lemma rleb_t a b : a <= b -> rleb a b = true. Proof. unfold rleb. destruct (Rle_dec a b); tauto. Qed.

Lemma check_skip_ok acor g m : g_ensembles g <> 0%nat -> skipped g m = true ->
  exists m', convergence_check acor g m = Ok m' /\ m_maxgr m' = PInf /\ m_minafactor m' = Fin (-1) /\ m_mixcount m' = m_mixcount m /\
     m_samplers m' = m_samplers m /\ m_chains m' = Some (map sp_chain (m_samplers m)).
Proof.
  intros He. rewrite skipped_flat. cbv zeta. unfold convergence_check. apply Nat.eqb_neq in He as ->. cbv zeta.
  intros ->. eexists. split; [reflexivity|]. repeat split; reflexivity.
Qed.

Lemma never_one_round tr nrun ci : (1 <= nrun)%Z -> (ci <= 9)%nat -> num_run (g_never nrun ci) = Ok 1%Z ->
  exists m df, mcmc tr acor1 (g_never nrun ci) [p_a] None = Ok (m, df) /\
    m_samplers m = domcmc tr 0 (ci - 1) [(p_a, one_step tr 0 p_a new_sampler)] /\
    m_chains m = Some (map sp_chain (m_samplers m)).
Proof.
  intros Hn Hc E. unfold mcmc. rewrite E. cbn [bind]. change (Z.to_nat 1) with 1%nat.
  cbn [rounds]. unfold one_round, round_to_save, sample_round.
  cbn [start g_never g_ensembles repeat first_steps m_started m_inits m_samplers iteration new_sampler length sp_chain Nat.leb orb bind negb].
  set (M := mkM _ _ _ _ _ _ _ _ _ _ _ _ _ _ _ _ _ _).
  assert (skipped (g_never nrun ci) M = true) as Sk.
  { rewrite skipped_flat. cbv zeta. cbn [m_nburn m_samplers M domcmc map concat rev app].
    destruct (run_steps_chain tr 0 (ci - 1) p_a (one_step tr 0 p_a new_sampler)) as [L _]. cbn [g_never g_check].
    destruct (one_step_chain tr 0 p_a new_sampler) as [L1 L2]. rewrite L, L1, L2, app_nil_r. cbn [new_sampler sp_chain app length sp_calls]. rewrite path_length.
    change (nw_of _) with 2%nat. unfold totsteps. change (nw_of _) with 2%nat. cbn [g_never g_nrun g_minpercent g_minsteps g_ensembles].
    apply (IZR_le 1) in Hn. apply andb_true_iff. split.
    - apply rltb_t. assert (INR (0 + 2 * S (ci - 1)) <= 18) as I. { replace 18 with (INR 18) by (rewrite INR_IZR_INZ; reflexivity). apply le_INR. lia. }
      assert (0 <= INR (0 + 2 * S (ci - 1))) as I0 by apply pos_INR.
      cbn [INR]. apply Rle_lt_trans with (18 / (1 * 2 * 1) * 100); [|lra].
      apply Rmult_le_compat_r; [lra|]. unfold Rdiv. apply Rmult_le_compat; auto.
      + left. apply Rinv_0_lt_compat. lra.
      + apply Rinv_le_contravar; lra.
    - apply rleb_t. assert (INR (2 * S (ci - 1)) <= 18) as I. { replace 18 with (INR 18) by (rewrite INR_IZR_INZ; reflexivity). apply le_INR. lia. } 
      cbn [INR]. lra. }
  destruct (check_skip_ok acor1 (g_never nrun ci) M ltac:(discriminate) Sk) as [m' [A [B [C [D [F G]]]]]].
  cbn [bind]. rewrite A. cbn [bind]. unfold burn_step. rewrite B, C. cbn [g_never g_burnGR g_burnA].
  unfold ext_leb at 1 2. assert (rleb 25 (-1) = false) as -> by (unfold rleb; destruct (Rle_dec 25 (-1)); [lra|reflexivity]).
  cbn [orb]. rewrite andb_false_r. cbn [bind]. rewrite D. cbn [m_mixcount M Nat.leb bind]. cbn [start m_mixcount bind]. rewrite G.
  cbn [thinned g_thin bind]. eexists; eexists. split; [reflexivity|]. split; [rewrite F; reflexivity|rewrite F; exact G].
Qed.

Lemma more_steps_than_requested : exists m df s,
  mcmc tr1 acor1 (g_never 2 3) [p_a] None = Ok (m, df) /\ m_samplers m = [s] /\ (g_nrun (g_never 2 3) < Z.of_nat (sp_calls s))%Z.
Proof.
  destruct (never_one_round tr1 2 3 ltac:(lia) ltac:(lia) eq_refl) as [m [df [A [B _]]]].
  exists m, df. eexists. split; [exact A|]. split; [rewrite B; reflexivity|]. cbn. lia.
Qed.
(** the default settings: 10000 steps requested, 204 rounds of 50 steps *)
Lemma default_rounds : num_run (mkCfg 50 5 10000 8 50 th0 (Fin 25) (Fin (103/100)) 1000 5 1) = Ok 204%Z.
Proof. reflexivity. Qed.

Lemma chain_not_trajectory : exists m df x y,
  mcmc tr1 acor1 (g_never 1 2) [p_a] None = Ok (m, df) /\ m_chains m = Some [[x; y]] /\
  forall k, y <> fst (tr1 0 k (s_pos x)).
Proof.
  destruct (never_one_round tr1 1 2 ltac:(lia) ltac:(lia) eq_refl) as [m [df [A [B C]]]].
  exists m, df. eexists; eexists. split; [exact A|]. split; [rewrite C, B; reflexivity|].
  intros k H. cbn in H. injection H as H _. lra.
Qed.

Lemma calc_always x : exists s gr ar, convergence_calculate acor1 th0 2 1 [[x; x]] None = Ok s /\
  st_tz s = [Fin (-1)] /\ st_gr s = [gr] /\ st_afactor s = [Fin (INR 2 / 1)] /\ st_archange s = [ar] /\ st_acor s = [Fin 1].
Proof.
  unfold convergence_calculate.
  cbn [same_length forallb negb length Nat.mul Nat.add Nat.leb Nat.eqb seq map concat app acor1 py_min py_max fold_left bind archange].
  assert (ext_div (Fin (INR 2)) (Fin 1) = Fin (INR 2 / 1)) as E1.
  { unfold ext_div, reqb. destruct (Req_EM_T 1 0); [lra|reflexivity]. }
  rewrite E1.
  assert (forall a, np_max [a] = Ok a) as NM by (intros []; reflexivity).
  assert (forall a, np_min [a] = Ok a) as NM' by (intros []; reflexivity).
  rewrite NM, NM'. cbn [bind]. eexists; eexists; eexists. split; [reflexivity|]. repeat split; reflexivity.
Qed.

Lemma burn_in_returned : exists m df,
  mcmc tr1 acor1 g_always [p_a] None = Ok (m, df) /\ m_burned m = true /\ m_nburn m = m_ncomplete m /\ length df = m_nburn m.
Proof.
  set (x := mkS (map (map (Rplus 1)) p_a) (map (fun _ => Fin 0) p_a)).
  set (sp := mkSp [x; x] [] 2).
  assert (sample_round tr1 g_always (start g_always [p_a] None) =
     Ok (mkM None [] [] [] [] true [sp] [p_a] None 0 0 false false 0 (Fin (-1)) PInf (Fin (-1)) PInf)) as E0 by reflexivity.
  assert (forall c, rltb (INR c / totsteps g_always * 100) 0 = false) as R0.
  { intro c. apply rltb_f. unfold totsteps. cbn [g_nrun g_always g_ensembles]. change (nw_of _) with 2%nat. cbn [INR].
    pose proof (pos_INR c). unfold Rdiv. apply Rmult_le_pos; [|lra]. apply Rmult_le_pos; [exact H|]. left. apply Rinv_0_lt_compat. lra. }
  destruct (calc_always x) as [st [gr [ar [Ec [E1 [E2 [E3 [E4 E5]]]]]]]].
  assert (convergence_check acor1 g_always (mkM None [] [] [] [] true [sp] [p_a] None 0 0 false false 0 (Fin (-1)) PInf (Fin (-1)) PInf) =
     Ok (mkM (Some [Fin 1]) [] [] [] [] true [sp] [p_a] (Some [[x; x]]) 4 0 false (st_mixed st) (if st_mixed st then 1%nat else 0%nat) (Fin (INR 2 / 1)) ar (Fin (-1)) gr)) as E6.
  { unfold convergence_check. change (Nat.eqb (g_ensembles g_always) 0) with false. cbv iota zeta.
    cbn [m_samplers map sp sp_chain m_nburn m_oac m_burned]. change (g_minpercent g_always) with 0. rewrite R0. cbn [andb].
    change (nw_of g_always) with 2%nat. change (g_ndim g_always) with 1%nat. change (g_th g_always) with th0. rewrite Ec. cbn [bind].
    rewrite E1, E2, E3, E4, E5. cbn [py_min py_max fold_left bind].
    assert (forall a, np_max [a] = Ok a) as NM by (intros []; reflexivity).
    assert (forall a, np_min [a] = Ok a) as NM' by (intros []; reflexivity).
    rewrite !NM, !NM'. cbn [bind]. reflexivity. }
  unfold mcmc. change (num_run g_always) with (Ok 1%Z : res Z). cbn [bind]. change (Z.to_nat 1) with 1%nat.
  cbn [rounds]. unfold one_round, round_to_save. rewrite E0. cbn [bind]. rewrite E6. cbn [bind].
  unfold burn_step. cbn [m_burned negb m_maxgr m_minafactor g_always g_burnGR g_burnA]. unfold ext_leb at 2.
  rewrite (rleb_t 1 (INR 2 / 1)) by (cbn [INR]; lra). rewrite orb_true_r. cbn [andb m_samplers map_res last_sample rev sp_chain app bind map sp].
  cbn [m_mixcount].
  assert ((2 <=? (if st_mixed st then 1 else 0))%nat = false) as -> by (destruct (st_mixed st); reflexivity).
  cbn [bind m_chains thinned g_thin]. eexists; eexists. split; [reflexivity|]. cbn [m_burned m_nburn m_ncomplete].
  split; [reflexivity|]. split; [reflexivity|]. reflexivity.
Qed.
