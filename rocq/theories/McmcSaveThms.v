(** Resuming a run: reached states, other settings, crashes. *)
From Coq Require Import Reals String Arith ZArith Bool Lia Lra List.
From Verif Require Import Py PyFloat PyFacts Params Mcmc McmcSave McmcSpec McmcProofs McmcThms McmcSaveProofs.
Import ListNotations.
Open Scope R_scope.

Section P.
Variable tr : nat -> nat -> ens -> sample * list nat.
Variable acor : list (list sample) -> list ext.
Variable g : mcfg.
(** every transition returns all walkers with all parameters *)
Hypothesis Htr : forall e c p, length (s_pos (fst (tr e c p))) = nw_of g /\ Forall (fun w => length w = g_ndim g) (s_pos (fst (tr e c p))).
Hypothesis Hci : (2 <= g_check g)%nat.
Hypothesis Hens : (1 <= g_ensembles g)%nat.
Hypothesis Hdim : (1 <= g_ndim g)%nat.

Lemma nw_pos : (1 <= nw_of g)%nat.
Proof. unfold nw_of, walkers. destruct (Nat.ltb_spec (g_nw g) (2 * g_ndim g)); lia. Qed.

(** the state that is saved in a round *)
Lemma saved_state inits prev r h m m1 : length inits = g_ensembles g -> after tr acor g (start g inits prev) r h m ->
  round_to_save tr acor g m = Ok m1 ->
  exists b, (b <= r)%nat /\ all_hold tr g 0 (S r - b) (b * g_check g) (m_inits m1) (m_samplers m1) /\ length (m_inits m1) = g_ensembles g /\
     (m_burned m1 = true -> (1 <= b)%nat) /\ m_nburn m1 = (b * g_check g * nw_of g * g_ensembles g)%nat.
Proof.
  intros Hl H Hs. destruct (inv_after tr acor g inits Hl Hci prev r h m H) as [I1 _ [b [Hb [Hp [Hh [Hn0 [Hn1 _]]]]]]].
  unfold round_to_save in Hs. apply bind_ok in Hs as [m0 [E0 Ec]].
  assert (m_started m = false -> (r - b)%nat = 0%nat) as Hst.
  { intro Q. destruct r as [|r]; [lia|]. rewrite I1 in Q; [discriminate|lia|]. destruct inits; [cbn in Hl; lia|discriminate]. }
  destruct (round_holds tr g (r - b) (b * g_check g) (m_inits m) Hci 0 (m_started m) (m_samplers m) Hh Hst) as [inp [st [F1 [F2 F3]]]].
  unfold sample_round in E0. rewrite F1 in E0. cbn [bind] in E0. injection E0 as <-.
  destruct (check_frame acor g _ _ Ec) as [G1 [G2 [G3 [G4 [G5 [G6 G7]]]]]]. cbn [m_samplers m_inits m_started m_burned m_nburn] in *.
  exists b. split; [exact Hb|]. rewrite G1, G2. replace (S r - b)%nat with (S (r - b)) by lia. split; [exact F2|].
  split; [rewrite <- Hl; apply Hp|]. rewrite G4, G5. split; [intro Q; now destruct (Hn1 Q)|].
  destruct (m_burned m); [apply (Hn1 eq_refl)|]. destruct (Hn0 eq_refl) as [-> ->]. reflexivity.
Qed.

Lemma hold_shape e k c p s : holds tr g e (S k) c p s -> sp_chain s <> [] /\ shape_of s = (nw_of g, g_ndim g).
Proof.
  intros [Hc _]. unfold shape_of. rewrite Hc. cbn [stored map]. split; [discriminate|]. unfold shape12. destruct (Htr e c p) as [A B].
  pose proof nw_pos. destruct (s_pos (fst (tr e c p))) as [|w l]; [cbn in A; lia|]. rewrite A. inversion B; subst. congruence.
Qed.
Lemma all_hold_shape k c inits : forall e sps, all_hold tr g e (S k) c inits sps ->
  Forall (fun s => sp_chain s <> [] /\ shape_of s = (nw_of g, g_ndim g)) sps.
Proof.
  induction inits as [|p inits IH]; intros e [|s sps] H; cbn in H; try contradiction; constructor.
  - eapply hold_shape. apply H.
  - eapply IH. apply H.
Qed.

Lemma saved_shape inits prev r h m m1 : length inits = g_ensembles g -> after tr acor g (start g inits prev) r h m ->
  round_to_save tr acor g m = Ok m1 ->
  length (m_samplers m1) = g_ensembles g /\ Forall (fun s => sp_chain s <> [] /\ shape_of s = (nw_of g, g_ndim g)) (m_samplers m1) /\
  (m_burned m1 = true -> m_nburn m1 <> 0%nat).
Proof.
  intros Hl H Hs. destruct (saved_state inits prev r h m m1 Hl H Hs) as [b [Hb [Ha [Li [B1 B2]]]]].
  split; [rewrite (all_hold_length _ _ _ _ _ _ _ Ha); exact Li|]. split.
  - replace (S r - b)%nat with (S (r - b)) in Ha by lia. eapply all_hold_shape; eauto.
  - intro Q. apply B1 in Q. rewrite B2. pose proof nw_pos. nia.
Qed.

Lemma resume_after_save inits prev r h m m1 f calls : length inits = g_ensembles g -> after tr acor g (start g inits prev) r h m ->
  round_to_save tr acor g m = Ok m1 -> clean f (g_ensembles g) ->
  exists f' m', save m1 f = Ok f' /\ resume g f' calls = Ok m' /\
    map sp_chain (m_samplers m') = map sp_chain (m_samplers m1) /\ map sp_acc (m_samplers m') = map sp_acc (m_samplers m1) /\
    map_res last_sample (m_samplers m1) = Ok (m_inits m') /\
    m_burned m' = m_burned m1 /\ (m_burned m1 = true -> m_nburn m' = m_nburn m1) /\
    m_autosamples m' = m_autosamples m1 /\ m_automin m' = m_automin m1 /\ m_automean m' = m_automean m1 /\ m_automax m' = m_automax m1 /\
    clean f' (g_ensembles g).
Proof.
  intros Hl H Hs Hc. destruct (saved_shape inits prev r h m m1 Hl H Hs) as [L [F B]].
  destruct (m_samplers m1) as [|s0 sps] eqn:Es; [cbn in L; lia|]. rewrite <- Es in *.
  destruct (save_complete m1 f) as [f' [Sv Hr]]; [rewrite Es; discriminate|now rewrite L|].
  destruct (resume_holds g f' m1 (m_samplers m1) calls Hr L) as [inits' [R I]].
  - exists s0. rewrite Es in *. split; [reflexivity|]. inversion F; subst. tauto.
  - eapply Forall_impl; [|exact F]. cbv beta. tauto.
  - exists f'. eexists. split; [exact Sv|]. split; [exact R|]. cbn [m_samplers m_inits m_burned m_nburn m_autosamples m_automin m_automean m_automax].
    unfold restored in *. rewrite !map_map. cbn [sp_chain sp_acc]. split; [reflexivity|]. split; [reflexivity|]. split.
    { rewrite <- I. clear. induction (m_samplers m1) as [|s l IH]; auto. cbn [map_res map]. now rewrite IH. }
    split. { destruct (m_burned m1); [|reflexivity]. destruct (Nat.eqb_spec (m_nburn m1) 0); [now apply B in e|reflexivity]. }
    split. { intros ->. reflexivity. }
    split; [reflexivity|]. split; [reflexivity|]. split; [reflexivity|]. split; [reflexivity|].
    split; [apply Hr|]. intros k Hk. rewrite <- L. now apply (hr_keys _ _ _ Hr).
Qed.

(** a complete file of another run is refused *)
Lemma resume_other_settings inits prev r h m m1 f f' g' calls : length inits = g_ensembles g -> after tr acor g (start g inits prev) r h m ->
  round_to_save tr acor g m = Ok m1 -> clean f (g_ensembles g) -> save m1 f = Ok f' ->
  (g_ensembles g', nw_of g', g_ndim g') <> (g_ensembles g, nw_of g, g_ndim g) -> resume g' f' calls = Err ValueError.
Proof.
  intros Hl H Hs Hc Sv Hd. destruct (saved_shape inits prev r h m m1 Hl H Hs) as [L [F B]].
  destruct (m_samplers m1) as [|s0 sps] eqn:Es; [cbn in L; lia|]. rewrite <- Es in *.
  destruct (save_complete m1 f) as [f2 [Sv' Hr]]; [rewrite Es; discriminate|now rewrite L|].
  rewrite Sv in Sv'. injection Sv' as <-. unfold resume. rewrite (load_holds f' m1 _ Hr). cbn [bind].
  rewrite (check_holds g' f' m1 _ s0 Hr); [|now rewrite Es]. rewrite Es in F. inversion F as [|? ? [_ Sh] _]; subst. rewrite Sh, L. cbn [fst snd].
  destruct (Nat.eqb_spec (g_ensembles g) (g_ensembles g')); [|reflexivity].
  destruct (Nat.eqb_spec (nw_of g) (nw_of g')); [|reflexivity].
  destruct (Nat.eqb_spec (g_ndim g) (g_ndim g')); [|reflexivity]. congruence.
Qed.
End P.

(** ** Crashes *)

Lemma crash_refused g m f n : length (m_samplers m) = g_ensembles g -> clean f (g_ensembles g) ->
  (n < length (save_ops m))%nat -> (n mod 18 <> 0)%nat ->
  exists f', run_ops (firstn n (save_ops m)) f = Ok f' /\ forall calls, exists e, resume g f' calls = Err e.
Proof.
  intros L [W I] Hn Hm.
  assert (forall m i sps, length (save_from m i sps) = (18 * length sps)%nat) as LS.
  { clear. intros m i sps. revert i. induction sps as [|s r IH]; intro i; [reflexivity|]. cbn [save_from length]. rewrite app_length, IH, ops_length. lia. }
  unfold save_ops in *. rewrite LS in Hn. destruct (save_prefix m (m_samplers m) 0 n Hn) as [t [j [s [E [Hj [Hs Hf]]]]]].
  rewrite Hf, run_ops_app. assert (t < length (m_samplers m))%nat as Ht by (apply nth_error_Some; congruence).
  assert (1 <= j)%nat as Hj1. { destruct j; [|lia]. exfalso. apply Hm. rewrite E, Nat.add_0_r, Nat.mul_comm. apply Nat.mod_mul. lia. }
  destruct (run_save_from m (firstn t (m_samplers m)) 0 f (g_ensembles g)) as [f1 [R1 [[W1 I1] _]]]; [split; auto|rewrite firstn_length; lia|].
  rewrite R1. cbn [bind Nat.add]. destruct (crash_inside m t s f1 j W1 ltac:(lia)) as [f2 [R2 [W2 [[k [Hk Hk0]] O2]]]].
  exists f2. split; [exact R2|]. intro calls. destruct (resume g f2 calls) as [m'|e] eqn:Er; [|eauto]. exfalso. apply resume_count in Er.
  assert (length f2 < 3 * g_ensembles g + 6)%nat; [|lia].
  apply (missing_key_length f2 _ k W2); auto.
  - apply (dget_incl f1 f2 t); auto; lia.
  - apply (nine_all _ t); [lia|exact Hk].
Qed.

(** the first save: a crash at any point is noticed *)
Lemma first_save_crash_refused g m n : length (m_samplers m) = g_ensembles g -> (1 <= g_ensembles g)%nat -> (n < length (save_ops m))%nat ->
  exists f', run_ops (firstn n (save_ops m)) [] = Ok f' /\ forall calls, exists e, resume g f' calls = Err e.
Proof.
  intros L He Hn. assert (clean [] (g_ensembles g)) as C0 by (split; [constructor|intros k []]).
  destruct (Nat.eq_dec (n mod 18) 0) as [Z|Z]; [|now apply crash_refused].
  assert (forall m i sps, length (save_from m i sps) = (18 * length sps)%nat) as LS.
  { clear. intros m i sps. revert i. induction sps as [|s r IH]; intro i; [reflexivity|]. cbn [save_from length]. rewrite app_length, IH, ops_length. lia. }
  unfold save_ops in *. rewrite LS in Hn. destruct (save_prefix m (m_samplers m) 0 n Hn) as [t [j [s [E [Hj [Hs Hf]]]]]].
  assert (j = 0)%nat as ->. { rewrite E in Z. rewrite Nat.add_comm, Nat.mul_comm, Nat.mod_add, Nat.mod_small in Z by lia. exact Z. }
  rewrite Hf, firstn_O, app_nil_r. assert (t < length (m_samplers m))%nat as Ht by (apply nth_error_Some; congruence).
  destruct (run_save_from m (firstn t (m_samplers m)) 0 [] t) as [f1 [R1 [[W1 I1] _]]]; [split; [constructor|intros k []]|rewrite firstn_length; lia|].
  exists f1. split; [exact R1|]. intro calls. destruct (resume g f1 calls) as [m'|e] eqn:Er; [|eauto]. exfalso. apply resume_count in Er.
  pose proof (keys_incl_length f1 t W1 I1). lia.
Qed.

(** between two samplers the mixture is accepted *)
Lemma boundary_accepted g m1 m2 f t calls : holds_run f m1 (m_samplers m1) -> length (m_samplers m1) = g_ensembles g ->
  length (m_samplers m2) = g_ensembles g -> (1 <= t < g_ensembles g)%nat ->
  Forall (fun s => sp_chain s <> [] /\ shape_of s = (nw_of g, g_ndim g)) (m_samplers m1) ->
  Forall (fun s => sp_chain s <> [] /\ shape_of s = (nw_of g, g_ndim g)) (m_samplers m2) ->
  exists f' m', run_ops (firstn (18 * t) (save_ops m2)) f = Ok f' /\ resume g f' calls = Ok m' /\
    map sp_chain (m_samplers m') = (map sp_chain (firstn t (m_samplers m2)) ++ map sp_chain (skipn t (m_samplers m1)))%list /\
    m_burned m' = negb (Nat.eqb (if m_burned m2 then m_nburn m2 else 0%nat) 0).
Proof.
  intros H L1 L2 Ht F1 F2.
  assert (firstn (18 * t) (save_ops m2) = save_from m2 0 (firstn t (m_samplers m2))) as E.
  { unfold save_ops. assert (forall t l i, (t <= length l)%nat -> firstn (18 * t) (save_from m2 i l) = save_from m2 i (firstn t l)) as G; [|apply G; lia].
    clear. induction t as [|t IH]; intros [|s l] i Q; cbn [length] in Q; try lia; [reflexivity..|]. cbn [firstn save_from]. rewrite firstn_app.
    rewrite firstn_all2 by (rewrite ops_length; lia). f_equal. rewrite ops_length. replace (18 * S t - 18)%nat with (18 * t)%nat by lia. apply IH. lia. }
  rewrite E. destruct (save_boundary m1 m2 (m_samplers m1) f t H ltac:(lia) ltac:(lia)) as [f' [R Hr]].
  assert (Forall (fun s => sp_chain s <> [] /\ shape_of s = (nw_of g, g_ndim g)) (firstn t (m_samplers m2) ++ skipn t (m_samplers m1))%list) as F.
  { apply Forall_app. split.
    - rewrite <- (firstn_skipn t (m_samplers m2)) in F2. apply Forall_app in F2. tauto.
    - rewrite <- (firstn_skipn t (m_samplers m1)) in F1. apply Forall_app in F1. tauto. }
  assert (length (firstn t (m_samplers m2) ++ skipn t (m_samplers m1))%list = g_ensembles g) as L by (rewrite app_length, firstn_length, skipn_length; lia).
  destruct (resume_holds g f' m2 _ calls Hr L) as [inits [Re _]].
  - destruct (firstn t (m_samplers m2) ++ skipn t (m_samplers m1))%list as [|s0 l] eqn:El; [cbn in L; lia|]. exists s0. split; [reflexivity|]. inversion F; tauto.
  - eapply Forall_impl; [|exact F]. cbv beta. tauto.
  - exists f'. eexists. split; [exact R|]. split; [exact Re|]. cbn [m_samplers m_burned]. unfold restored. rewrite map_map. cbn [sp_chain].
    split; [now rewrite map_app|reflexivity].
Qed.

(** ** Two reached states of one run with two ensembles *)
Definition g2 : mcfg := mkCfg 2 1 100 2 2 th0 (Fin 25) (Fin (103 / 100)) 1000 1000 1.
Definition sx (k : R) : sample := mkS [[k]; [k]] [Fin 0; Fin 0].
(** a transition that returns walkers at the number of the transition *)
Definition tr2 (e c : nat) (p : ens) : sample * list nat := (sx (INR c), []).
Definition p0s : list ens := [[[0]; [0]]; [[0]; [0]]].
Definition sp_n (l : list sample) : sampler := mkSp l [] (length l).
Definition M1 : mstate := mkM None [] [] [] [] true [sp_n [sx (INR 0); sx (INR 1)]; sp_n [sx (INR 0); sx (INR 1)]] p0s
  (Some [[sx (INR 0); sx (INR 1)]; [sx (INR 0); sx (INR 1)]]) 8 0 false false 0 (Fin (-1)) PInf (Fin (-1)) PInf.
Definition c4 : list sample := [sx (INR 0); sx (INR 1); sx (INR 2); sx (INR 3)].
Definition M2 : mstate := mkM None [] [] [] [] true [sp_n c4; sp_n c4] p0s
  (Some [c4; c4]) 16 0 false false 0 (Fin (-1)) PInf (Fin (-1)) PInf.

Lemma g2_skip nc last : (nc <= 16)%nat -> (last <= 16)%nat ->
  rltb (INR nc / totsteps g2 * 100) (g_minpercent g2) && rleb (INR last) (g_minsteps g2 * INR (nw_of g2)) = true.
Proof.
  intros H1 H2. apply le_INR in H1, H2. replace (INR 16) with 16 in * by (rewrite INR_IZR_INZ; reflexivity).
  unfold totsteps. change (nw_of g2) with 2%nat. cbn [g2 g_nrun g_minpercent g_minsteps g_ensembles]. cbn [INR]. apply andb_true_iff. split.
  - apply rltb_t. unfold Rdiv. pose proof (pos_INR nc). replace (100 * (1 + 1) * (1 + 1)) with 400 by lra.
    apply Rle_lt_trans with (16 * / 400 * 100); [|lra]. apply Rmult_le_compat_r; [lra|]. apply Rmult_le_compat_r; lra.
  - apply rleb_t. lra.
Qed.
Lemma M1_reached : round_to_save tr2 acor1 g2 (start g2 p0s None) = Ok M1.
Proof.
  unfold round_to_save.
  assert (sample_round tr2 g2 (start g2 p0s None) = Ok (mkM None [] [] [] [] true (m_samplers M1) p0s None 0 0 false false 0 (Fin (-1)) PInf (Fin (-1)) PInf)) as -> by reflexivity.
  cbn [bind]. unfold convergence_check. change (Nat.eqb (g_ensembles g2) 0) with false. cbv iota zeta.
  cbn [m_samplers m_nburn M1 map sp_n sp_chain]. rewrite g2_skip by (cbn; lia). reflexivity.
Qed.
Lemma M1_burn : burn_step g2 M1 = Ok M1.
Proof.
  unfold burn_step. cbn [M1 m_burned m_maxgr m_minafactor g2 g_burnGR g_burnA negb andb ext_leb]. unfold rleb.
  destruct (Rle_dec 25 (-1)); [lra|reflexivity].
Qed.
Lemma M2_reached : round_to_save tr2 acor1 g2 M1 = Ok M2.
Proof.
  unfold round_to_save.
  assert (sample_round tr2 g2 M1 = Ok (mkM None [] [] [] [] true (m_samplers M2) p0s (m_chains M1) 8 0 false false 0 (Fin (-1)) PInf (Fin (-1)) PInf)) as -> by reflexivity.
  cbn [bind]. unfold convergence_check. change (Nat.eqb (g_ensembles g2) 0) with false. cbv iota zeta.
  cbn [m_samplers m_nburn M2 map sp_n sp_chain]. rewrite g2_skip by (cbn; lia). reflexivity.
Qed.
Lemma tr2_shape : forall e c p, length (s_pos (fst (tr2 e c p))) = nw_of g2 /\ Forall (fun w => length w = g_ndim g2) (s_pos (fst (tr2 e c p))).
Proof. intros. split; [reflexivity|]. repeat constructor. Qed.
Lemma clean_nil n : clean [] n. Proof. split; [constructor|intros k []]. Qed.

(** a crash between the two samplers in the second round: accepted, with two
    samples too few in the second chain *)
Lemma crash_mixture : exists m1 m1' m2 f1 f2 m n,
  round_to_save tr2 acor1 g2 (start g2 p0s None) = Ok m1 /\ burn_step g2 m1 = Ok m1' /\ round_to_save tr2 acor1 g2 m1' = Ok m2 /\
  save m1 [] = Ok f1 /\ run_ops (firstn n (save_ops m2)) f1 = Ok f2 /\ resume g2 f2 0 = Ok m /\
  map sp_chain (m_samplers m) <> map sp_chain (m_samplers m1) /\ map sp_chain (m_samplers m) <> map sp_chain (m_samplers m2) /\
  map (fun s => length (sp_chain s)) (m_samplers m) = [4; 2]%nat.
Proof.
  exists M1, M1, M2.
  destruct (save_complete M1 []) as [f1 [S1 H1]]; [discriminate|apply clean_nil|].
  destruct (boundary_accepted g2 M1 M2 f1 1 0 H1 eq_refl eq_refl) as [f2 [m [R2 [Re [Ch _]]]]]; [cbn; lia|..].
  1-2: repeat constructor; discriminate.
  exists f1, f2, m, 18%nat. split; [apply M1_reached|]. split; [apply M1_burn|]. split; [apply M2_reached|]. split; [exact S1|].
  split; [exact R2|]. split; [exact Re|]. rewrite Ch. split; [discriminate|]. split; [discriminate|].
  rewrite <- (map_map sp_chain (@length sample)), Ch. reflexivity.
Qed.

(** a file left over from a run with more ensembles makes a complete save unusable *)
Lemma leftover g m f n k : length (m_samplers m) = g_ensembles g -> (1 <= g_ensembles g <= n)%nat -> clean f n ->
  In k (dkeys f) -> ~ In k (all_keys (g_ensembles g)) ->
  exists f', save m f = Ok f' /\ forall calls, exists e, resume g f' calls = Err e.
Proof.
  intros L He Hc Hk Hn. destruct (run_save_from m (m_samplers m) 0 f n Hc ltac:(lia)) as [f' [R [[W I] [DC [DS O]]]]].
  exists f'. split; [exact R|]. intro calls. destruct (resume g f' calls) as [m'|e] eqn:Er; [|eauto]. exfalso. apply resume_count in Er.
  assert (incl (k :: all_keys (g_ensembles g)) (dkeys f')) as In'.
  { intros x [<-|Hx].
    - destruct (dget f' k) eqn:E; [eapply dget_key; eauto|]. exfalso. rewrite O in E.
      + apply dget_none in E. easy.
      + intro Q. apply Hn, in_all. now right.
      + intros t Ht Q. apply Hn, in_all. left. exists t. split; [lia|exact Q].
    - apply in_all in Hx as [[i [Hi Hx]]|Hx].
      + destruct (nth_error (m_samplers m) i) as [s|] eqn:E; [|apply nth_error_None in E; lia].
        destruct (nine_entry m i s x) as [v Hv]; [unfold nine; apply in_app_iff; now left|]. eapply dget_key. eapply DS; eauto.
      + destruct (nine_entry m 0 new_sampler x) as [v Hv]; [unfold nine; apply in_app_iff; now right|]. eapply dget_key. eapply DC; eauto.
        intro Q. rewrite Q in L. cbn in L. lia. }
  apply NoDup_incl_length in In'; [|constructor; [exact Hn|apply nodup_all]]. cbn [length] in In'. rewrite length_all in In'.
  unfold dkeys in In'. rewrite map_length in In'. lia.
Qed.
Definition g1 : mcfg := mkCfg 2 1 100 1 2 th0 (Fin 25) (Fin (103 / 100)) 1000 1000 1.
Lemma leftover_refused : exists m1 f1 m f2 e,
  round_to_save tr2 acor1 g2 (start g2 p0s None) = Ok m1 /\ save m1 [] = Ok f1 /\
  round_to_save tr2 acor1 g1 (start g1 [[[0]; [0]]] None) = Ok m /\ save m f1 = Ok f2 /\ resume g1 f2 0 = Err e.
Proof.
  exists M1. destruct (save_complete M1 []) as [f1 [S1 H1]]; [discriminate|apply clean_nil|]. exists f1.
  assert (exists m, round_to_save tr2 acor1 g1 (start g1 [[[0]; [0]]] None) = Ok m /\ m_samplers m = [sp_n [sx (INR 0); sx (INR 1)]] ) as [m [Em Es]].
  { unfold round_to_save.
    assert (sample_round tr2 g1 (start g1 [[[0]; [0]]] None) = Ok (mkM None [] [] [] [] true [sp_n [sx (INR 0); sx (INR 1)]] [[[0]; [0]]] None 0 0 false false 0 (Fin (-1)) PInf (Fin (-1)) PInf)) as -> by reflexivity.
    cbn [bind]. unfold convergence_check. change (Nat.eqb (g_ensembles g1) 0) with false. cbv iota zeta. 
    cbn [m_samplers m_nburn map sp_n sp_chain]. change (nw_of g1) with 2%nat.
    assert (rltb (INR (0 + 2 * length (concat [[sx (INR 0); sx (INR 1)]])) / totsteps g1 * 100) (g_minpercent g1) &&
      rleb (INR (2 * length [sx (INR 0); sx (INR 1)])) (g_minsteps g1 * INR 2) = true) as Q.
    { cbn [length concat app Nat.add Nat.mul]. unfold totsteps. change (nw_of g1) with 2%nat. cbn [g1 g_nrun g_minpercent g_minsteps g_ensembles INR].
      apply andb_true_iff. split; [apply rltb_t; lra|apply rleb_t; lra]. }
    cbn [rev app]. rewrite Q. eexists. split; [reflexivity|]. reflexivity. }
  destruct (leftover g1 m f1 2 (k_chain 1)) as [f2 [S2 R2]].
  - now rewrite Es.
  - cbn. lia.
  - split; [apply H1|]. intros k Hk. now apply (hr_keys _ _ _ H1).
  - apply (hr_keys _ _ _ H1). apply in_all. left. exists 1%nat. split; [cbn; lia|now left].
  - intro Q. apply in_all in Q as [[i [Hi Q]]|Q]; [|now apply key_common in Q].
    assert (1 = i)%nat by (apply (three_disj 1 i (k_chain 1)); [now left|exact Q]). cbn in Hi. lia.
  - destruct (R2 0%nat) as [e He]. exists m, f2, e. split; [apply M1_reached|]. split; [exact S1|]. auto.
Qed.

(** ** Instances used beside the property theorems *)
Lemma M2_burn : burn_step g2 M2 = Ok M2.
Proof.
  unfold burn_step. cbn [M2 m_burned m_maxgr m_minafactor g2 g_burnGR g_burnA negb andb ext_leb]. unfold rleb.
  destruct (Rle_dec 25 (-1)); [lra|reflexivity].
Qed.
Lemma g2_skipped m : m_nburn m = 0%nat -> m_samplers m = m_samplers M1 \/ m_samplers m = m_samplers M2 -> skipped g2 m = true.
Proof.
  intros E H. rewrite skipped_flat. cbv zeta. rewrite E. destruct H as [-> | ->]; cbn [m_samplers M1 M2 map sp_n sp_chain];
    apply g2_skip; cbn; lia.
Qed.
Lemma ex_two_rounds : exists m, length p0s = g_ensembles g2 /\ (2 <= g_check g2)%nat /\
  after tr2 acor1 g2 (start g2 p0s None) 2 [] m /\ m_ncomplete m = 16%nat.
Proof.
  exists M2. split; [reflexivity|]. split; [cbn; lia|]. split; [|reflexivity].
  apply after_skip with M1 (mkM None [] [] [] [] true (m_samplers M2) p0s (m_chains M1) 8 0 false false 0 (Fin (-1)) PInf (Fin (-1)) PInf).
  - apply after_skip with (start g2 p0s None) (mkM None [] [] [] [] true (m_samplers M1) p0s None 0 0 false false 0 (Fin (-1)) PInf (Fin (-1)) PInf).
    + constructor.
    + reflexivity.
    + apply g2_skipped; auto.
    + unfold one_round. rewrite M1_reached. cbn [bind]. apply M1_burn.
  - reflexivity.
  - apply g2_skipped; auto.
  - unfold one_round. rewrite M2_reached. cbn [bind]. apply M2_burn.
Qed.
Lemma ex_rounds : exists m, rounds tr2 acor1 g2 2 (start g2 p0s None) = Ok m.
Proof.
  exists M2. cbn [rounds]. unfold one_round. rewrite M1_reached. cbn [bind]. rewrite M1_burn. cbn [bind M1 m_mixcount Nat.leb].
  fold M1. rewrite M2_reached. cbn [bind]. rewrite M2_burn. reflexivity.
Qed.


(** ** The returned DataFrame of a whole run *)
From Verif Require Import McmcRows.
Lemma mcmc_returned tr acor g inits m df :
  (forall e c p, shaped g (fst (tr e c p))) -> (2 <= g_check g)%nat -> (1 <= g_ensembles g)%nat -> (1 <= g_thin g)%nat ->
  length inits = g_ensembles g -> mcmc tr acor g inits None = Ok (m, df) ->
  exists chains (rowno : nat * nat * nat -> nat), m_chains m = Some chains /\ length chains = g_ensembles g /\
    (forall t t', valid g chains t -> valid g chains t' -> rowno t = rowno t' -> t = t') /\
    (forall i row, nth_error df i = Some row -> exists t, valid g chains t /\ rowno t = (i * g_thin g)%nat /\ row_of chains t row) /\
    (forall t i, valid g chains t -> rowno t = (i * g_thin g)%nat -> exists row, nth_error df i = Some row /\ row_of chains t row).
Proof.
  intros Htr Hci He Ht Hl H. unfold mcmc in H. apply bind_ok in H as [n [_ H]]. apply bind_ok in H as [m' [Hr H]].
  destruct (m_chains m') as [chains|] eqn:Ec; [|discriminate]. apply bind_ok in H as [df' [Hd H]]. injection H as -> ->.
  destruct (run_after tr acor g inits None _ _ Hr) as [r [h [Ha [_ _]]]].
  assert (1 <= r)%nat as H1. { destruct r; [|lia]. inversion Ha; subst. discriminate Ec. }
  destruct (chains_trajectory tr acor g inits None r h m Hl Hci Ha H1) as [chains' [b [E1 [E2 [_ [_ [_ E3]]]]]]].
  rewrite Ec in E1. injection E1 as <-.
  assert (Forall (shaped g) (concat chains)) as Hs.
  { apply Forall_concat. apply Forall_forall. intros c Hc. apply In_nth_error in Hc as [e Hce].
    destruct (nth_error inits e) as [p0|] eqn:Ei.
    - destruct (E3 e p0 c Ei Hce) as [_ F]. apply Forall_forall. intros x Hx. apply In_nth_error in Hx as [i Hi].
      rewrite F in Hi by (apply nth_error_Some; congruence). injection Hi as <-. apply Htr.
    - exfalso. apply nth_error_None in Ei. assert (e < length chains)%nat by (apply nth_error_Some; congruence). lia. }
  destruct (df_rows_triples g chains) as [rowno [R1 [R2 R3]]]; [intros ->; cbn in E2; lia|exact Hs|].
  destruct (thinned_nth (g_thin g) (df_rows g chains) Ht) as [l [T1 T2]]. rewrite Hd in T1. injection T1 as <-.
  exists chains, rowno. split; [exact Ec|]. split; [exact E2|]. split; [exact R2|]. split.
  - intros i row Hi. rewrite T2 in Hi. destruct (R3 (i * g_thin g)%nat) as [t [Vt Rt]]; [apply nth_error_Some; congruence|].
    exists t. split; [exact Vt|]. split; [exact Rt|]. destruct (R1 t Vt) as [row' [A B]]. rewrite Rt, Hi in A. injection A as <-. exact B.
  - intros t i Vt Rt. destruct (R1 t Vt) as [row [A B]]. exists row. rewrite T2, <- Rt. auto.
Qed.
