(** Consequences for sessions. *)
From Coq Require Import String Ascii Arith Bool Lia List.
From Verif Require Import Py PyFacts Params Mass Status StatusProofs StatusSpec StatusRound StatusInv StatusThms Pipeline PipelineSpec PipelineProofs PipelineSim.
Import ListNotations.
Open Scope string_scope.

Lemma steps_app l1 l2 s : steps (l1 ++ l2)%list s = steps l2 (steps l1 s).
Proof. revert s. induction l1 as [|k l IH]; intro s; cbn; auto. Qed.

(** ** what a step does to each component *)
Lemma plot_all_same l : forall s s0 sm, let r := fst (plot_all s s0 sm l) in
  s_fit r = s_fit s /\ s_post r = s_post s /\ s_mcmc r = s_mcmc s /\ s_ns r = s_ns s /\ s_derived r = s_derived s /\ s_ic r = s_ic s.
Proof.
  induction l as [|t l IH]; intros s s0 sm; cbn; [tauto|]. destruct (plot_needs s0 sm t); cbn; [|tauto].
  destruct (IH (mkStage (s_fit s) (s_post s) (s_mcmc s) (s_ns s) (s_derived s) (s_ic s) true) s0 sm) as (h1 & h2 & h3 & h4 & h5 & h6). cbn in *. tauto.
Qed.

Lemma step_fit k s : s_fit (fst (step k s)) = may_fit k || s_fit s.
Proof.
  destruct k; cbn [step may_fit].
  - destruct init as [[]|e], run as [[]|e']; reflexivity.
  - destruct init as [[]|e]; cbn [bind]; [|reflexivity]. destruct (s_fit s) eqn:E; [|auto]. destruct run as [[]|e']; [|auto]. destruct (s_post s); cbn; auto.
  - destruct init as [[]|e], run as [[]|e']; reflexivity.
  - destruct (pick sampler s) as [x|e]; cbn [bind]; [|reflexivity]. destruct init as [[]|e]; cbn [bind]; [|reflexivity].
    destruct (results x s) as [[p ch]|]; [|reflexivity]. destruct stellar; cbn; [|reflexivity]. destruct run; reflexivity.
  - destruct init as [[]|e]; cbn [bind]; [|reflexivity]. destruct (s_fit s) eqn:E; [|auto]. destruct run; auto.
  - destruct init as [[]|e]; cbn [bind]; [|reflexivity]. destruct (use sampler s); reflexivity.
  - destruct init as [[]|e]; cbn [bind]; [|reflexivity]. destruct (s_fit s) eqn:E; [|auto]. rewrite <- E. apply plot_all_same.
  - destruct (pick sampler s); cbn [bind]; [|reflexivity]. destruct init as [[]|e]; cbn [bind]; [|reflexivity]. destruct (use sampler s); reflexivity.
Qed.
Ltac rest k := destruct k; cbn [step]; repeat first
  [ match goal with |- context [do _ <- ?i; _] => destruct i as [?|?]; cbn [bind] end
  | match goal with |- context [match ?r with Ok _ => _ | Err _ => _ end] => destruct r as [?|?] end ].

(** invariant: what is recorded is there *)
Definition inv (s : stage) : Prop := (s_fit s = true -> s_post s <> None) /\ (s_mcmc s <> None -> s_post s <> None).
Lemma inv_rel q w s c : rel q w s c -> inv s.
Proof.
  intros (_ & R & _). split.
  - intro H. apply (rc_fit1 _ _ _ R H).
  - intro H. apply (rc_mc1 _ _ _ R). destruct (s_mcmc s); [reflexivity|easy].
Qed.

Lemma step_mcmc k s : inv s -> isome (s_mcmc (fst (step k s))) = (may_mcmc k && s_fit s) || isome (s_mcmc s).
Proof.
  intros (I & _). destruct k; cbn [step may_mcmc].
  - destruct init as [[]|e], run as [[]|e']; reflexivity.
  - destruct init as [[]|e]; cbn [bind]; [|reflexivity]. destruct (s_fit s) eqn:E; [|destruct run as [[]|]; reflexivity]. destruct run as [[]|e']; [|reflexivity]. specialize (I eq_refl). destruct (s_post s); [reflexivity|easy].
  - destruct init as [[]|e], run as [[]|e']; reflexivity.
  - destruct (pick sampler s) as [x|e]; cbn [bind]; [|reflexivity]. destruct init as [[]|e]; cbn [bind]; [|reflexivity].
    destruct (results x s) as [[p ch]|]; [|reflexivity]. destruct stellar; cbn; [|reflexivity]. destruct run; reflexivity.
  - destruct init as [[]|e]; cbn [bind]; [|reflexivity]. destruct (s_fit s) eqn:E; [|auto]. destruct run; auto.
  - destruct init as [[]|e]; cbn [bind]; [|reflexivity]. destruct (use sampler s); reflexivity.
  - destruct init as [[]|e]; cbn [bind]; [|reflexivity]. destruct (s_fit s) eqn:E; [|auto].
    destruct (plot_all_same types s s sampler) as (_ & _ & H & _). now rewrite H.
  - destruct (pick sampler s); cbn [bind]; [|reflexivity]. destruct init as [[]|e]; cbn [bind]; [|reflexivity]. destruct (use sampler s); reflexivity.
Qed.
Lemma step_ns k s : isome (s_ns (fst (step k s))) = may_ns k || isome (s_ns s).
Proof.
  destruct k; cbn [step may_ns].
  - destruct init as [[]|e], run as [[]|e']; reflexivity.
  - destruct init as [[]|e]; cbn [bind]; [|reflexivity]. destruct (s_fit s) eqn:E; [|auto]. destruct run as [[]|e']; [|auto]. destruct (s_post s); cbn; auto.
  - destruct init as [[]|e], run as [[]|e']; reflexivity.
  - destruct (pick sampler s) as [x|e] eqn:Ep; cbn [bind]; [|reflexivity]. destruct init as [[]|e]; cbn [bind]; [|reflexivity].
    destruct (results x s) as [[p ch]|] eqn:Er; [|reflexivity]. destruct stellar; cbn; [|reflexivity]. destruct run; [|reflexivity]. cbn.
    destruct (pick_mcmc_ns _ _ _ Ep) as [(-> & J)|(-> & J)]; cbn; auto.
  - destruct init as [[]|e]; cbn [bind]; [|reflexivity]. destruct (s_fit s) eqn:E; [|auto]. destruct run; auto.
  - destruct init as [[]|e]; cbn [bind]; [|reflexivity]. destruct (use sampler s); reflexivity.
  - destruct init as [[]|e]; cbn [bind]; [|reflexivity]. destruct (s_fit s) eqn:E; [|auto].
    destruct (plot_all_same types s s sampler) as (_ & _ & _ & H & _). now rewrite H.
  - destruct (pick sampler s); cbn [bind]; [|reflexivity]. destruct init as [[]|e]; cbn [bind]; [|reflexivity]. destruct (use sampler s); reflexivity.
Qed.
Lemma results_some s x : inv s -> x = "mcmc" /\ isome (s_mcmc s) = true \/ x = "ns" /\ isome (s_ns s) = true -> results x s <> None.
Proof.
  intros (_ & I) [(-> & H)|(-> & H)]; unfold results; cbn.
  - destruct (s_mcmc s); [|easy]. destruct (s_post s); [easy|]. intro. now apply I.
  - now destruct (s_ns s).
Qed.
Definition picks (sampler : string) (s : stage) : bool := match pick sampler s with Ok _ => true | Err _ => false end.
Lemma step_derived k s : inv s -> isome (s_derived (fst (step k s))) =
  (match k with Derive _ sm (Ok _) (Ok _) true => picks sm s | _ => false end) || isome (s_derived s).
Proof.
  intro I. destruct k; cbn [step].
  - destruct init as [[]|e], run as [[]|e']; reflexivity.
  - destruct init as [[]|e]; cbn [bind]; [|reflexivity]. destruct (s_fit s) eqn:E; [|auto]. destruct run as [[]|e']; [|auto]. destruct (s_post s); cbn; auto.
  - destruct init as [[]|e], run as [[]|e']; reflexivity.
  - unfold picks. destruct (pick sampler s) as [x|e] eqn:Ep; cbn [bind]; [|destruct init, run, stellar; reflexivity]. destruct init as [[]|e]; cbn [bind]; [|reflexivity].
    pose proof (results_some s x I (pick_mcmc_ns _ _ _ Ep)) as Nr. destruct (results x s) as [[p ch]|] eqn:Er; [|easy].
    destruct stellar; cbn; [destruct run; reflexivity|]. destruct run; reflexivity.
  - destruct init as [[]|e]; cbn [bind]; [|reflexivity]. destruct (s_fit s) eqn:E; [|auto]. destruct run; auto.
  - destruct init as [[]|e]; cbn [bind]; [|reflexivity]. destruct (use sampler s); reflexivity.
  - destruct init as [[]|e]; cbn [bind]; [|reflexivity]. destruct (s_fit s) eqn:E; [|auto].
    destruct (plot_all_same types s s sampler) as (_ & _ & _ & _ & H & _). now rewrite H.
  - destruct (pick sampler s); cbn [bind]; [|reflexivity]. destruct init as [[]|e]; cbn [bind]; [|reflexivity]. destruct (use sampler s); reflexivity.
Qed.

(** ** histories *)
Section reach.
Variables (q : string) (Q : path_ok q).
Lemma reach l : Forall cmd_ok l -> exists c, rel q (session q l empty_world) (steps l start) c.
Proof. intro F. apply (sim_session q l Q F empty_world start no_config). apply rel_start. Qed.
Lemma reach_inv l : Forall cmd_ok l -> inv (steps l start).
Proof. intro F. destruct (reach l F) as (c & R). now apply (inv_rel _ _ _ _ R). Qed.
End reach.
Lemma path_w : path_ok "w".
Proof. repeat split; easy. Qed.

Lemma app_one {A} (l l1 l2 : list A) (k x : A) : (l ++ [k])%list = (l1 ++ x :: l2)%list ->
  (l2 = [] /\ k = x /\ l = l1) \/ exists l3, l2 = (l3 ++ [k])%list /\ l = (l1 ++ x :: l3)%list.
Proof.
  destruct l2 as [|y l2] using rev_ind; intro H.
  - left. apply app_inj_tail in H as (-> & ->). auto.
  - right. clear IHl2. replace (l1 ++ x :: l2 ++ [y])%list with ((l1 ++ x :: l2) ++ [y])%list in H by now rewrite <- app_assoc.
    apply app_inj_tail in H as (-> & ->). eauto.
Qed.
Lemma unit_ok (r : unit) : r = tt. Proof. now destruct r. Qed.
Lemma may_fit_spec k : may_fit k = true <-> exists n, k = Fit n ok ok.
Proof. split; [|intros (n & ->); reflexivity]. destruct k; try discriminate. destruct init as [[]|], run as [[]|]; try discriminate. eauto. Qed.
Lemma may_mcmc_spec k : may_mcmc k = true <-> exists n x, k = Mcmc n ok ok x.
Proof. split; [|intros (n & x & ->); reflexivity]. destruct k; try discriminate. destruct init as [[]|], run as [[]|]; try discriminate. eauto. Qed.
Lemma may_ns_spec k : may_ns k = true <-> exists n x, k = Nested n ok ok x.
Proof. split; [|intros (n & x & ->); reflexivity]. destruct k; try discriminate. destruct init as [[]|], run as [[]|]; try discriminate. eauto. Qed.

Lemma fit_done_snoc l k : fit_done (l ++ [k]) <-> fit_done l \/ may_fit k = true.
Proof.
  rewrite may_fit_spec. unfold fit_done. split.
  - intros (n & H). apply in_app_iff in H as [H|[->|[]]]; eauto.
  - intros [(n & H)|(n & ->)]; exists n; apply in_app_iff; cbn; auto.
Qed.
Lemma ns_done_snoc l k : ns_done (l ++ [k]) <-> ns_done l \/ may_ns k = true.
Proof.
  rewrite may_ns_spec. unfold ns_done. split.
  - intros (n & kw & H). apply in_app_iff in H as [H|[->|[]]]; eauto.
  - intros [(n & kw & H)|(n & kw & ->)]; exists n, kw; apply in_app_iff; cbn; auto.
Qed.
Lemma mcmc_done_snoc l k : mcmc_done (l ++ [k]) <-> mcmc_done l \/ (may_mcmc k = true /\ fit_done l).
Proof.
  rewrite may_mcmc_spec. unfold mcmc_done. split.
  - intros (l1 & l2 & n & x & H & F). apply app_one in H as [(-> & -> & ->)|(l3 & -> & ->)]; [right; eauto|left; eauto 6].
  - intros [(l1 & l2 & n & x & -> & F)|((n & x & ->) & F)].
    + exists l1, (l2 ++ [k])%list, n, x. now rewrite <- app_assoc.
    + exists l, [], n, x. auto.
Qed.
Lemma derive_done_snoc l k : derive_done (l ++ [k]) <-> derive_done l \/ exists n s, k = Derive n s ok ok true /\ served s l.
Proof.
  unfold derive_done. split.
  - intros (l1 & l2 & n & x & H & F). apply app_one in H as [(-> & -> & ->)|(l3 & -> & ->)]; [right; eauto|left; eauto 6].
  - intros [(l1 & l2 & n & x & -> & F)|(n & x & -> & F)].
    + exists l1, (l2 ++ [k])%list, n, x. now rewrite <- app_assoc.
    + exists l, [], n, x. auto.
Qed.
Lemma ic_done_snoc l k : ic_done (l ++ [k]) <-> ic_done l \/ exists t, k = Ic ok ok t /\ fit_done l.
Proof.
  unfold ic_done. split.
  - intros (l1 & l2 & n & H & F). apply app_one in H as [(-> & -> & ->)|(l3 & -> & ->)]; [right; eauto|left; eauto 6].
  - intros [(l1 & l2 & n & -> & F)|(n & -> & F)].
    + exists l1, (l2 ++ [k])%list, n. now rewrite <- app_assoc.
    + exists l, [], n. auto.
Qed.
Lemma steps_snoc l k s : steps (l ++ [k])%list s = fst (step k (steps l s)).
Proof. now rewrite steps_app. Qed.

Lemma fit_hist l : s_fit (steps l start) = true <-> fit_done l.
Proof.
  induction l as [|k l IH] using rev_ind; [split; [discriminate|intros (n & [])]|].
  rewrite steps_snoc, step_fit, fit_done_snoc, <- IH, orb_true_iff. tauto.
Qed.
Lemma ns_hist l : isome (s_ns (steps l start)) = true <-> ns_done l.
Proof.
  induction l as [|k l IH] using rev_ind; [split; [discriminate|intros (n & kw & [])]|].
  rewrite steps_snoc, step_ns, ns_done_snoc, <- IH, orb_true_iff. tauto.
Qed.
Lemma forall_snoc {A} (P : A -> Prop) l k : Forall P (l ++ [k]) -> Forall P l /\ P k.
Proof. intro H. apply Forall_app in H as (H & K). now inversion K. Qed.
Lemma mcmc_hist l : Forall cmd_ok l -> isome (s_mcmc (steps l start)) = true <-> mcmc_done l.
Proof.
  induction l as [|k l IH] using rev_ind; intro F.
  - split; [discriminate|]. intros (l1 & l2 & n & x & H & _). now destruct l1.
  - apply forall_snoc in F as (F & Fk). rewrite steps_snoc, step_mcmc by (now apply (reach_inv "w" path_w)).
    rewrite mcmc_done_snoc, <- IH, <- fit_hist, orb_true_iff, andb_true_iff by easy. tauto.
Qed.
Lemma pick_hist l sampler : Forall cmd_ok l -> picks sampler (steps l start) = true <-> served sampler l.
Proof.
  intro F. unfold served. rewrite <- mcmc_hist, <- ns_hist by easy. unfold picks, pick, choose.
  set (a := isome (s_mcmc _)). set (b := isome (s_ns _)). clearbody a b.
  destruct (String.eqb_spec sampler "auto") as [->|Na]; [destruct a, b; cbn; intuition (try easy)|].
  destruct (String.eqb_spec sampler "mcmc") as [->|Nm]; [destruct a, b; cbn; intuition (try easy)|].
  destruct (String.eqb_spec sampler "ns") as [->|Nn]; destruct a, b; cbn; intuition (try easy).
Qed.
Lemma derived_hist l : Forall cmd_ok l -> isome (s_derived (steps l start)) = true <-> derive_done l.
Proof.
  induction l as [|k l IH] using rev_ind; intro F.
  - split; [discriminate|]. intros (l1 & l2 & n & x & H & _). now destruct l1.
  - apply forall_snoc in F as (F & Fk). rewrite steps_snoc, step_derived by (now apply (reach_inv "w" path_w)).
    rewrite derive_done_snoc, <- IH, orb_true_iff by easy. rewrite or_comm. apply or_iff_compat_l. split.
    + destruct k; try discriminate. destruct init as [[]|], run as [[]|]; try discriminate. destruct stellar; [|discriminate].
      intro H. exists n, sampler. split; [reflexivity|]. now apply pick_hist.
    + intros (n & s & -> & H). now apply pick_hist.
Qed.
Lemma step_ic k s : s_ic (fst (step k s)) = (match k with Ic (Ok _) (Ok _) _ => s_fit s | _ => false end) || s_ic s.
Proof.
  destruct k; cbn [step].
  - destruct init as [[]|e], run as [[]|e']; reflexivity.
  - destruct init as [[]|e]; cbn [bind]; [|reflexivity]. destruct (s_fit s) eqn:E; [|auto]. destruct run as [[]|e']; [|auto]. destruct (s_post s); cbn; auto.
  - destruct init as [[]|e], run as [[]|e']; reflexivity.
  - destruct (pick sampler s) as [x|e]; cbn [bind]; [|reflexivity]. destruct init as [[]|e]; cbn [bind]; [|reflexivity].
    destruct (results x s) as [[p ch]|]; [|reflexivity]. destruct stellar; cbn; [|reflexivity]. destruct run; reflexivity.
  - destruct init as [[]|e]; cbn [bind]; [|reflexivity]. destruct (s_fit s) eqn:E; destruct run as [[]|]; reflexivity.
  - destruct init as [[]|e]; cbn [bind]; [|reflexivity]. destruct (use sampler s); reflexivity.
  - destruct init as [[]|e]; cbn [bind]; [|reflexivity]. destruct (s_fit s) eqn:E; [|auto].
    destruct (plot_all_same types s s sampler) as (_ & _ & _ & _ & _ & H). now rewrite H.
  - destruct (pick sampler s); cbn [bind]; [|reflexivity]. destruct init as [[]|e]; cbn [bind]; [|reflexivity]. destruct (use sampler s); reflexivity.
Qed.
Lemma ic_hist l : s_ic (steps l start) = true <-> ic_done l.
Proof.
  induction l as [|k l IH] using rev_ind.
  - split; [discriminate|]. intros (l1 & l2 & n & H & _). now destruct l1.
  - rewrite steps_snoc, step_ic, ic_done_snoc, <- IH, orb_true_iff. rewrite or_comm. apply or_iff_compat_l. split.
    + destruct k; try discriminate. destruct init as [[]|], run as [[]|]; try discriminate. intro H. exists stats. split; [reflexivity|]. now apply fit_hist.
    + intros (t & -> & H). now apply fit_hist.
Qed.

(** ** C60 *)
Section c60.
Variables (q : string) (Q : path_ok q) (l : list cmd) (F : Forall cmd_ok l).
Let w := session q l empty_world.
Let s := steps l start.
Lemma exec_step k : cmd_ok k -> snd (exec q k w) = snd (step k s).
Proof.
  intro K. destruct (reach q Q l F) as (c & R). pose proof (sim_exec q k _ _ c Q K R) as S. unfold sim in S. apply S.
Qed.
Lemma use_ok sampler : picks sampler s = true -> exists u, use sampler s = Ok u.
Proof.
  unfold picks, use. destruct (pick sampler s) as [r|] eqn:E; [|easy]. intros _. cbn [bind].
  pose proof (results_some s r (reach_inv q Q l F) (pick_mcmc_ns _ _ _ E)) as N. destruct (results r s) as [[p n]|]; [eauto|easy].
Qed.

Lemma c60_fit n : snd (fit q n ok ok w) = ok.
Proof. exact (exec_step (Fit n ok ok) I). Qed.
Lemma c60_ns n kw : kw_ok kw -> snd (nested q n ok ok kw w) = ok.
Proof. intro H. exact (exec_step (Nested n ok ok kw) H). Qed.
Lemma c60_mcmc n x : (forall k, val_ok (x k)) ->
  (fit_done l -> snd (mcmc q n ok ok x w) = ok) /\ (~ fit_done l -> snd (mcmc q n ok ok x w) = Err PlainException).
Proof.
  intro H. pose proof (exec_step (Mcmc n ok ok x) H) as E. cbn [exec step bind] in E. fold (snd (mcmc q n ok ok x w)) in E.
  rewrite <- fit_hist. fold s. destruct (reach_inv q Q l F) as (J & _). fold s in J. split; intro G.
  - rewrite E, G. specialize (J G). now destruct (s_post s).
  - rewrite E. destruct (s_fit s); [easy|]. reflexivity.
Qed.
Lemma c60_ic t : val_ok t -> (fit_done l -> snd (ic q ok ok t w) = ok) /\ (~ fit_done l -> snd (ic q ok ok t w) = Err PlainException).
Proof.
  intro H. pose proof (exec_step (Ic ok ok t) H) as E. cbn [exec step bind] in E. rewrite <- fit_hist. fold s. rewrite E.
  destruct (s_fit s); split; easy.
Qed.
Lemma c60_plots sampler : (fit_done l -> snd (plots q sampler [] ok w) = ok) /\
  (forall ts, ~ fit_done l -> snd (plots q sampler ts ok w) = Err PlainException).
Proof.
  split; [intro G|intros ts G]; rewrite <- fit_hist in G; fold s in G.
  - pose proof (exec_step (Plots sampler [] ok) I) as E. cbn [exec step bind] in E. rewrite E, G. reflexivity.
  - pose proof (exec_step (Plots sampler ts ok) I) as E. cbn [exec step bind] in E. rewrite E. now destruct (s_fit s).
Qed.
Lemma c60_derive n sampler st : snd (derive q n sampler ok ok st w) = ok <-> served sampler l.
Proof.
  rewrite <- pick_hist by easy. fold s. pose proof (exec_step (Derive n sampler ok ok st) I) as E. cbn [exec step] in E. rewrite E. clear E.
  unfold picks. destruct (pick sampler s) as [r|] eqn:E; [|easy]. cbn [bind].
  pose proof (results_some s r (reach_inv q Q l F) (pick_mcmc_ns _ _ _ E)) as N. destruct (results r s) as [[p m]|]; [|easy]. now destruct st.
Qed.
Lemma tables_res sampler ts : snd (tables q sampler ts ok w) =
  do u <- use sampler s; do _ <- for_each ts (fun _ t => table_needs s u t) tt; Ok u.
Proof. destruct (reach q Q l F) as (c & R). exact (proj2 (tables_rel q sampler ts ok _ _ c Q R)). Qed.
Lemma c60_tables sampler : (exists u, snd (tables q sampler [] ok w) = Ok u) <-> served sampler l.
Proof.
  rewrite <- pick_hist by easy. fold s. rewrite tables_res. split.
  - intros (u & H). unfold use, picks in *. now destruct (pick sampler s).
  - intro H. destruct (use_ok _ H) as (u & E). exists u. now rewrite E.
Qed.
Lemma c60_table_ic sampler : served sampler l -> ((exists u, snd (tables q sampler [TIc] ok w) = Ok u) <-> ic_done l).
Proof.
  intro V. rewrite <- pick_hist in V by easy. destruct (use_ok _ V) as (u & E). rewrite <- ic_hist. fold s. rewrite tables_res, E. cbn.
  destruct (s_ic s); cbn; split; try easy; [eauto|now intros (v & H)].
Qed.
Lemma c60_plot_derived sampler : fit_done l -> (snd (plots q sampler [PDerived] ok w) = ok <-> derive_done l).
Proof.
  rewrite <- fit_hist, <- derived_hist by easy. fold s. intro G. pose proof (exec_step (Plots sampler [PDerived] ok) I) as E. cbn [exec step bind] in E.
  rewrite E, G. cbn. now destruct (isome (s_derived s)).
Qed.
Lemma for_each_unit {A} (f : A -> res unit) ts : forall e, for_each ts (fun _ t => f t) tt = Err e -> exists t, In t ts /\ f t = Err e.
Proof.
  induction ts as [|t ts IH]; intros e H; [discriminate|]. cbn in H. destruct (f t) as [[]|e'] eqn:E; cbn in H.
  - destruct (IH e H) as (t' & K & J). exists t'. cbn; auto.
  - injection H as ->. exists t. cbn; auto.
Qed.
Lemma pick_err sampler e : pick sampler s = Err e -> e <> FileNotFoundError.
Proof.
  unfold pick, choose. destruct (isome _), (isome _); cbn; repeat match goal with |- context [if ?b then _ else _] => destruct b end; intro H; try discriminate; injection H as <-; easy.
Qed.
Lemma use_err sampler e : use sampler s = Err e -> e <> FileNotFoundError.
Proof.
  intros H. destruct (picks sampler s) eqn:P; [destruct (use_ok _ P) as (u & E); congruence|].
  unfold picks, use in *. destruct (pick sampler s) eqn:E; [easy|]. cbn in H. injection H as <-. eapply pick_err; eauto.
Qed.
Lemma plot_all_err sampler ts : forall s1 e, snd (plot_all s1 s sampler ts) = Err e -> e <> FileNotFoundError.
Proof.
  induction ts as [|t ts IH]; intros s1 e H; [discriminate|]. cbn in H. destruct (plot_needs s sampler t) as [[]|e'] eqn:E.
  - eapply IH; eauto.
  - cbn in H. injection H as ->. destruct t; cbn in E; try discriminate.
    + destruct (pick sampler s) as [r|] eqn:P; cbn in E; [destruct (String.eqb r "mcmc"); [easy|injection E as <-; easy]|injection E as <-; eapply pick_err; eauto].
    + destruct (pick sampler s) as [r|] eqn:P; cbn in E; [easy|injection E as <-; eapply pick_err; eauto].
    + destruct (pick sampler s) as [r|] eqn:P; cbn in E; [destruct (String.eqb r "mcmc"); [easy|injection E as <-; easy]|injection E as <-; eapply pick_err; eauto].
    + destruct (isome (s_derived s)); [easy|injection E as <-; easy].
Qed.
Lemma c60_no_missing k : cmd_ok k -> cmd_fair k -> snd (exec q k w) <> Err FileNotFoundError.
Proof.
  intros K G. rewrite (exec_step k K). destruct (reach_inv q Q l F) as (J1 & J2). fold s in J1, J2. unfold fair in *.
  destruct k; cbn [step cmd_fair] in *.
  - destruct init as [[]|e], run as [[]|e']; cbn; intuition congruence.
  - destruct init as [[]|e]; cbn [bind]; [|cbn; intuition congruence]. destruct (s_fit s) eqn:E; [|easy]. specialize (J1 eq_refl).
    destruct run as [[]|e']; [|cbn; intuition congruence]. now destruct (s_post s).
  - destruct init as [[]|e], run as [[]|e']; cbn; intuition congruence.
  - destruct (pick sampler s) as [r|] eqn:P; cbn [bind]; [|cbn; intro H; injection H as ->; now apply (pick_err _ _ P)].
    destruct init as [[]|e]; cbn [bind]; [|cbn; intuition congruence].
    pose proof (results_some s r (conj J1 J2) (pick_mcmc_ns _ _ _ P)) as N. destruct (results r s) as [[p m]|]; [|easy].
    destruct stellar; [|easy]. destruct run; cbn; intuition congruence.
  - destruct init as [[]|e]; cbn [bind]; [|cbn; intuition congruence]. destruct (s_fit s) eqn:E; [|easy]. destruct run; cbn; intuition congruence.
  - destruct init as [[]|e]; cbn [bind]; [|cbn; intuition congruence]. destruct (use sampler s) as [u|] eqn:U; cbn.
    + intro H. apply for_each_unit in H as (t & _ & H). destruct t; cbn in H; repeat match type of H with context [if ?b then _ else _] => destruct b end; discriminate.
    + intro H; injection H as ->; now apply (use_err _ _ U).
  - destruct init as [[]|e]; cbn [bind]; [|cbn; intuition congruence]. destruct (s_fit s) eqn:E; [|easy]. intro H. now apply (plot_all_err sampler types s _ H).
  - destruct (pick sampler s) as [r|] eqn:P; cbn [bind]; [|cbn; intro H; injection H as ->; now apply (pick_err _ _ P)].
    destruct init as [[]|e]; cbn [bind]; [|cbn; intuition congruence]. destruct (use sampler s) as [u|] eqn:U; cbn.
    + destruct (s_plot s), (p_max (u_post u)); easy.
    + intro H; injection H as ->; now apply (use_err _ _ U).
Qed.
End c60.

(** ** a command that raises before its results has written nothing *)
Definition clean {A} (m : M A) (w : world) : Prop := forall e, snd (m w) = Err e -> fst (m w) = w.
Definition reads {A} (m : M A) : Prop := forall w, fst (m w) = w.
Definition safe {A} (c : config) (m : M A) : Prop := forall w, load_status (w_status w) = Ok c -> exists a, snd (m w) = Ok a.
Lemma clean_bind {A B} (m : M A) (f : A -> M B) w : reads m -> (forall a, clean (f a) w) -> clean (mbind m f) w.
Proof.
  intros R H e. unfold mbind. specialize (R w). destruct (m w) as [w' r]. cbn in R. subst w'. destruct r as [a|e']; [apply H|reflexivity].
Qed.
Lemma clean_safe {A} c (m : M A) w : load_status (w_status w) = Ok c -> safe c m -> clean m w.
Proof. intros L S e H. destruct (S w L) as (a & E). congruence. Qed.
Lemma safe_put {B} c p x (m : M B) : safe c m -> safe c (dom _ <- put p x; m).
Proof. intros S w L. unfold mbind, put. cbn. apply S. exact L. Qed.
Lemma safe_save c sec vars : save_ok (sec, vars) -> safe c (save sec vars).
Proof. intros O w L. destruct (save_spec w sec vars c L O) as (w' & c' & E & _). rewrite E. cbn. eauto. Qed.
Lemma reads_lift {A} (r : res A) : reads (mlift r). Proof. easy. Qed.
Lemma reads_status : reads status_now. Proof. easy. Qed.
Lemma reads_load p : reads (load_post p). Proof. easy. Qed.
Lemma reads_chain p : reads (read_chain p). Proof. easy. Qed.
Lemma reads_ret {A} (a : A) : reads (mret a). Proof. easy. Qed.
Lemma reads_assert b : reads (massert b). Proof. now destruct b. Qed.
Lemma reads_bind {A B} (m : M A) (f : A -> M B) : reads m -> (forall a, reads (f a)) -> reads (mbind m f).
Proof. intros R H w. unfold mbind. specialize (R w). destruct (m w) as [w' r]. cbn in R. subst. destruct r; [apply H|reflexivity]. Qed.
Ltac cl := repeat (apply clean_bind; [first [apply reads_lift|apply reads_status|apply reads_load|apply reads_chain|apply reads_assert]|intro]).
Lemma c60_refused q l k e : path_ok q -> Forall cmd_ok l -> cmd_ok k -> computing k ->
  let w := session q l empty_world in snd (exec q k w) = Err e -> fst (exec q k w) = w.
Proof.
  intros Q F K C w. destruct (reach q Q l F) as (c & L & _). fold w in L. revert e. change (clean (exec q k) w).
  destruct k; try destruct C; cbn [exec cmd_ok] in *.
  - cl. apply (clean_safe c _ _ L). apply safe_put, safe_save, ok_fit, Q.
  - unfold mcmc. cl. apply clean_bind; [|intro].
    { destruct a1; [|apply reads_ret]. apply reads_bind; [easy|]. intro; apply reads_load. }
    cl. apply (clean_safe c _ _ L). repeat apply safe_put. now apply safe_save, ok_mcmc.
  - cl. apply (clean_safe c _ _ L). repeat apply safe_put. now apply safe_save, ok_ns.
  - cl. destruct stellar; [|easy]. cbn [negb]. cl. apply (clean_safe c _ _ L). repeat apply safe_put. apply safe_save, ok_derive, Q.
  - cl. apply (clean_safe c _ _ L). now apply safe_save, ok_ic.
Qed.

(** ** C61 *)
Section c61.
Variables (q : string) (Q : path_ok q).
Lemma tables_use l sampler ts u : Forall cmd_ok l -> snd (tables q sampler ts ok (session q l empty_world)) = Ok u -> use sampler (steps l start) = Ok u.
Proof.
  intros F. rewrite (tables_res q Q l F). destruct (use sampler (steps l start)); cbn; [|easy]. destruct (for_each _ _ _); cbn; [|easy]. congruence.
Qed.
End c61.

(** which steps leave a component alone *)
Lemma step_keeps k s :
  (may_fit k = false -> may_mcmc k = false -> option_map p_run (s_post (fst (step k s))) = option_map p_run (s_post s) /\
                                               option_map p_max (s_post (fst (step k s))) = option_map p_max (s_post s)) /\
  (may_mcmc k = false -> s_mcmc (fst (step k s)) = s_mcmc s) /\
  (may_ns k = false -> option_map (fun x => (p_run (fst x), p_max (fst x), snd x)) (s_ns (fst (step k s))) = option_map (fun x => (p_run (fst x), p_max (fst x), snd x)) (s_ns s)) /\
  (may_derive k = false -> s_derived (fst (step k s)) = s_derived s).
Proof.
  destruct k; cbn [step may_fit may_mcmc may_ns may_derive].
  - destruct init as [[]|e], run as [[]|e']; cbn; repeat split; easy.
  - destruct init as [[]|e]; cbn [bind]; [|repeat split; easy]. destruct run as [[]|e'], (s_fit s), (s_post s) eqn:E; cbn; rewrite ?E; repeat split; easy.
  - destruct init as [[]|e], run as [[]|e']; cbn; repeat split; easy.
  - destruct (pick sampler s) as [x|e]; cbn [bind]; [|repeat split; easy]. destruct init as [[]|e]; cbn [bind]; [|repeat split; easy].
    unfold results. destruct (String.eqb_spec x "mcmc") as [->|N]; [destruct (s_post s) as [p|] eqn:E, (s_mcmc s) eqn:E'|destruct (s_ns s) as [[p ch]|] eqn:E]; cbn;
      rewrite ?E, ?E'; try (repeat split; easy); destruct stellar, run as [[]|]; cbn; rewrite ?E, ?E'; repeat split; easy.
  - destruct init as [[]|e], run as [[]|e'], (s_fit s); cbn; repeat split; easy.
  - destruct init as [[]|e]; cbn [bind]; [|repeat split; easy]. destruct (use sampler s); repeat split; easy.
  - destruct init as [[]|e]; cbn [bind]; [|repeat split; easy]. destruct (s_fit s) eqn:E; [|repeat split; easy].
    destruct (plot_all_same types s s sampler) as (_ & H1 & H2 & H3 & H4 & _). rewrite H1, H2, H3, H4. repeat split; easy.
  - destruct (pick sampler s); cbn [bind]; [|repeat split; easy]. destruct init as [[]|e]; cbn [bind]; [|repeat split; easy]. destruct (use sampler s); repeat split; easy.
Qed.
Lemma none_tl f k l : none f (k :: l) -> f k = false /\ none f l.
Proof. intro H. split; [apply H; now left|]. intros x I. apply H. now right. Qed.
Lemma steps_post l : forall s, none may_fit l -> none may_mcmc l -> option_map p_run (s_post (steps l s)) = option_map p_run (s_post s) /\
   option_map p_max (s_post (steps l s)) = option_map p_max (s_post s) /\ s_mcmc (steps l s) = s_mcmc s.
Proof.
  induction l as [|k l IH]; intros s A B; [auto|]. apply none_tl in A as (A1 & A), B as (B1 & B). cbn.
  destruct (step_keeps k s) as (P & M & _). destruct (P A1 B1) as (P1 & P2). destruct (IH (fst (step k s)) A B) as (E1 & E2 & E3). rewrite E1, E2, E3. auto.
Qed.
Lemma steps_mcmc l : forall s, none may_mcmc l -> s_mcmc (steps l s) = s_mcmc s.
Proof.
  induction l as [|k l IH]; intros s B; [auto|]. apply none_tl in B as (B1 & B). cbn. rewrite IH by easy. now apply step_keeps.
Qed.
Lemma steps_ns l : forall s, none may_ns l -> option_map (fun x => (p_run (fst x), p_max (fst x), snd x)) (s_ns (steps l s)) = option_map (fun x => (p_run (fst x), p_max (fst x), snd x)) (s_ns s).
Proof.
  induction l as [|k l IH]; intros s B; [auto|]. apply none_tl in B as (B1 & B). cbn. rewrite IH by easy. now apply step_keeps.
Qed.
Lemma steps_derived l : forall s, none may_derive l -> s_derived (steps l s) = s_derived s.
Proof.
  induction l as [|k l IH]; intros s B; [auto|]. apply none_tl in B as (B1 & B). cbn. rewrite IH by easy. now apply step_keeps.
Qed.
Lemma session_app q l1 l2 w : session q (l1 ++ l2)%list w = session q l2 (session q l1 w).
Proof. revert w. induction l1 as [|k l IH]; intro w; cbn; auto. Qed.

Section c61b.
Variables (q : string) (Q : path_ok q).
(** nested sampling: its own files *)
Lemma c61_ns l1 l2 n kw ts u : let l := (l1 ++ Nested n ok ok kw :: l2)%list in
  Forall cmd_ok l -> none may_ns l2 -> snd (tables q "ns" ts ok (session q l empty_world)) = Ok u ->
  p_run (u_post u) = n /\ u_chain u = n /\ p_max (u_post u) = true.
Proof.
  intros l F N H. apply (tables_use q Q l "ns" ts u F) in H. unfold l in H. rewrite steps_app in H. cbn [steps] in H.
  set (s1 := fst (step (Nested n ok ok kw) (steps l1 start))) in *. pose proof (steps_ns l2 s1 N) as E.
  unfold use in H. destruct (pick "ns" (steps l2 s1)) as [r|] eqn:P; [|easy]. cbn [bind] in H.
  assert (r = "ns") as ->. { unfold pick, choose in P. destruct (isome _), (isome _); cbn in P; congruence. }
  change (results "ns" (steps l2 s1)) with (s_ns (steps l2 s1)) in H. 
  assert (X : s_ns s1 = Some (mkPost n true None, n)) by reflexivity. rewrite X in E.
  destruct (s_ns (steps l2 s1)) as [[p m]|]; [|discriminate]. cbn in E, H. injection E as E1 E2 E3. injection H as <-. now cbn.
Qed.
Lemma served_after_mcmc l1 n x l2 : fit_done l1 -> mcmc_done (l1 ++ Mcmc n ok ok x :: l2).
Proof. intro D. now exists l1, l2, n, x. Qed.
Lemma c61_mcmc l1 l2 n x ts u : let l := (l1 ++ Mcmc n ok ok x :: l2)%list in
  Forall cmd_ok l -> fit_done l1 -> none may_fit l2 -> none may_mcmc l2 -> snd (tables q "mcmc" ts ok (session q l empty_world)) = Ok u ->
  p_run (u_post u) = n /\ u_chain u = n /\ p_max (u_post u) = true.
Proof.
  intros l F D Nf Nm H. apply (tables_use q Q l "mcmc" ts u F) in H. unfold l in H. rewrite steps_app in H. cbn [steps] in H.
  assert (F1 : Forall cmd_ok l1) by (apply Forall_app in F; tauto).
  set (s1 := fst (step (Mcmc n ok ok x) (steps l1 start))) in *. destruct (steps_post l2 s1 Nf Nm) as (E1 & E2 & E3).
  assert (S1 : exists p, s_post s1 = Some p /\ p_run p = n /\ p_max p = true /\ s_mcmc s1 = Some n).
  { unfold s1. cbn [step bind]. pose proof D as D'. rewrite <- fit_hist in D. rewrite D. destruct (reach_inv q Q l1 F1) as (J & _). specialize (J D).
    destruct (s_post (steps l1 start)); [|easy]. cbn. eexists. repeat split; reflexivity. }
  destruct S1 as (p & S1 & S2 & S3 & S4). rewrite S1 in E1, E2. rewrite S4 in E3.
  unfold use in H. destruct (pick "mcmc" (steps l2 s1)) as [r|] eqn:P; [|easy]. cbn [bind] in H.
  assert (r = "mcmc") as ->. { unfold pick, choose in P. destruct (isome _), (isome _); cbn in P; congruence. }
  change (results "mcmc" (steps l2 s1)) with (match s_post (steps l2 s1), s_mcmc (steps l2 s1) with Some p, Some n => Some (p, n) | _, _ => None end) in H.
  rewrite E3 in H. destruct (s_post (steps l2 s1)) as [p'|]; [|discriminate]. cbn in E1, E2, H. injection E1 as E1. injection E2 as E2. injection H as <-. cbn. repeat split; congruence.
Qed.
(** derived samples belong to the samples they were made from as long as those are not replaced *)
Lemma c61_derived l1 l2 d sampler r ts u : let l := (l1 ++ Derive d sampler ok ok true :: l2)%list in
  Forall cmd_ok l -> pick sampler (steps l1 start) = Ok r -> none may_derive l2 -> (r = "mcmc" /\ none may_mcmc l2 \/ r = "ns" /\ none may_ns l2) ->
  snd (tables q r ts ok (session q l empty_world)) = Ok u -> u_derived u = Some (d, u_chain u).
Proof.
  intros l F P Nd Nr H. apply (tables_use q Q l r ts u F) in H. unfold l in H. rewrite steps_app in H. cbn [steps] in H.
  assert (F1 : Forall cmd_ok l1) by (apply Forall_app in F; tauto).
  set (s0 := steps l1 start) in *. set (s1 := fst (step (Derive d sampler ok ok true) s0)) in *.
  pose proof (results_some s0 r (reach_inv q Q l1 F1) (pick_mcmc_ns _ _ _ P)) as N.
  pose proof (steps_derived l2 s1 Nd) as Ed.
  assert (S1 : exists p ch, results r s0 = Some (p, ch) /\ s_derived s1 = Some (d, ch) /\ (r = "mcmc" -> s_mcmc s1 = Some ch) /\ (r = "ns" -> option_map snd (s_ns s1) = Some ch)).
  { unfold s1. cbn [step]. rewrite P. cbn [bind]. destruct (results r s0) as [[p ch]|] eqn:R; [|easy]. exists p, ch. cbn. repeat split; auto.
    - intros ->. unfold results in R. cbn in R. destruct (s_post s0), (s_mcmc s0); congruence.
    - now intros ->. }
  destruct S1 as (p & ch & R & S1 & S2 & S3). rewrite S1 in Ed.
  unfold use in H. destruct (pick r (steps l2 s1)) as [r'|] eqn:P'; [|easy]. cbn [bind] in H. rewrite Ed in H.
  destruct Nr as [(-> & Nr)|(-> & Nr)].
  - assert (r' = "mcmc") as ->. { unfold pick, choose in P'. destruct (isome _), (isome _); cbn in P'; congruence. }
    pose proof (steps_mcmc l2 s1 Nr) as E. rewrite (S2 eq_refl) in E. change (results "mcmc" (steps l2 s1)) with (match s_post (steps l2 s1), s_mcmc (steps l2 s1) with Some p, Some n => Some (p, n) | _, _ => None end) in H. rewrite E in H. destruct (s_post (steps l2 s1)); [|discriminate]. injection H as <-. reflexivity.
  - assert (r' = "ns") as ->. { unfold pick, choose in P'. destruct (isome _), (isome _); cbn in P'; congruence. }
    pose proof (steps_ns l2 s1 Nr) as E. specialize (S3 eq_refl). change (results "ns" (steps l2 s1)) with (s_ns (steps l2 s1)) in H. destruct (s_ns (steps l2 s1)) as [[p' m]|]; [|discriminate].
    injection H as <-. destruct (s_ns s1) as [[p1 m1]|]; [|discriminate]. cbn in E, S3 |- *. congruence.
Qed.
End c61b.

Lemma chosen_pick sampler l r : Forall cmd_ok l -> chosen sampler l r -> pick sampler (steps l start) = Ok r.
Proof.
  intros F. unfold chosen. rewrite <- mcmc_hist, <- ns_hist by easy. unfold pick, choose.
  set (a := isome (s_mcmc _)). set (b := isome (s_ns _)). clearbody a b.
  intros [(-> & Ha & [->| ->])|(-> & Hb & [->|(-> & N)])]; destruct a, b; cbn in *; easy.
Qed.
Section c61c.
Variables (q : string) (Q : path_ok q).
Lemma c61_derived_chosen l1 l2 d sampler r ts u : let l := (l1 ++ Derive d sampler ok ok true :: l2)%list in
  Forall cmd_ok l -> chosen sampler l1 r -> none may_derive l2 -> (r = "mcmc" /\ none may_mcmc l2 \/ r = "ns" /\ none may_ns l2) ->
  snd (tables q r ts ok (session q l empty_world)) = Ok u -> u_derived u = Some (d, u_chain u).
Proof.
  intros l F C. apply (c61_derived q Q l1 l2 d sampler r ts u F). apply chosen_pick; [|exact C]. apply Forall_app in F; tauto.
Qed.
(** a full analysis in the usual order *)
Lemma c61_mcmc_ok l1 l2 n x : let l := (l1 ++ Mcmc n ok ok x :: l2)%list in
  Forall cmd_ok l -> fit_done l1 -> none may_fit l2 -> none may_mcmc l2 ->
  exists u, snd (tables q "mcmc" [TParams; TPriors; TRv; TCrit] ok (session q l empty_world)) = Ok u /\ p_run (u_post u) = n /\ u_chain u = n.
Proof.
  intros l F D Nf Nm.
  assert (S : served "mcmc" l). { right. left. split; [reflexivity|]. now apply served_after_mcmc. }
  destruct (proj2 (c60_tables q Q l F "mcmc") S) as (u & E). destruct (c61_mcmc q Q l1 l2 n x [] u F D Nf Nm E) as (E1 & E2 & E3).
  exists u. split; [|auto]. rewrite (tables_res q Q l F). apply (tables_use q Q l "mcmc" [] u F) in E. rewrite E. cbn. now rewrite E3.
Qed.
Lemma c61_ns_ok l1 l2 n kw : let l := (l1 ++ Nested n ok ok kw :: l2)%list in
  Forall cmd_ok l -> none may_ns l2 ->
  exists u, snd (tables q "ns" [TParams; TPriors; TRv; TCrit] ok (session q l empty_world)) = Ok u /\ p_run (u_post u) = n /\ u_chain u = n.
Proof.
  intros l F N.
  assert (S : served "ns" l). { right. right. split; [reflexivity|]. exists n, kw. apply in_app_iff. right. now left. }
  destruct (proj2 (c60_tables q Q l F "ns") S) as (u & E). destruct (c61_ns q Q l1 l2 n kw [] u F N E) as (E1 & E2 & E3).
  exists u. split; [|auto]. rewrite (tables_res q Q l F). apply (tables_use q Q l "ns" [] u F) in E. rewrite E. cbn. now rewrite E3.
Qed.
End c61c.

(** witnesses *)
Definition xs (k : string) : string := "1".
Definition l_refit : list cmd := [Fit 1 ok ok; Mcmc 2 ok ok xs; Fit 3 ok ok].
Definition l_stale : list cmd := [Fit 1 ok ok; Mcmc 2 ok ok xs; Derive 3 "auto" ok ok true; Mcmc 4 ok ok xs].
Definition l_mixed : list cmd := [Fit 1 ok ok; Mcmc 2 ok ok xs; Nested 3 ok ok []; Derive 4 "ns" ok ok true].
Lemma xs_ok k : val_ok (xs k). Proof. repeat split; vm_compute; repeat constructor. Qed.
Lemma x_ok : val_ok "x". Proof. repeat split; vm_compute; repeat constructor. Qed.
Lemma l_ok l : In l [l_refit; l_stale; l_mixed] -> Forall cmd_ok l.
Proof. intro H. cbn in H. repeat (destruct H as [<-|H]); try destruct H; repeat (constructor; [first [exact I|exact xs_ok|now constructor]|]); constructor. Qed.
Lemma w_refit : snd (tables "K2" "auto" [TPriors; TRv; TCrit] ok (session "K2" l_refit empty_world)) =
  Ok (mkUsed "mcmc" (mkPost 3 false None) 2 None).
Proof. vm_compute. reflexivity. Qed.
Lemma w_refit_params : snd (tables "K2" "auto" [TParams] ok (session "K2" l_refit empty_world)) = Err AttributeError.
Proof. vm_compute. reflexivity. Qed.
Lemma w_stale : snd (tables "K2" "auto" [TParams; TDerived] ok (session "K2" l_stale empty_world)) =
  Ok (mkUsed "mcmc" (mkPost 4 true (Some 3)) 4 (Some (3, 2))).
Proof. vm_compute. reflexivity. Qed.
Lemma w_mixed : snd (tables "K2" "mcmc" [TParams; TDerived] ok (session "K2" l_mixed empty_world)) =
  Ok (mkUsed "mcmc" (mkPost 2 true None) 2 (Some (4, 3))).
Proof. vm_compute. reflexivity. Qed.
Lemma path_k2 : path_ok "K2". Proof. repeat split; easy. Qed.
Lemma c61_refuted :
  (exists q l u, path_ok q /\ Forall cmd_ok l /\ snd (tables q "auto" [TPriors; TRv; TCrit] ok (session q l empty_world)) = Ok u /\ p_run (u_post u) <> u_chain u) /\
  (exists q l u d n, path_ok q /\ Forall cmd_ok l /\ snd (tables q "auto" [TParams; TDerived] ok (session q l empty_world)) = Ok u /\ u_derived u = Some (d, n) /\ n <> u_chain u) /\
  (exists q l u d n, path_ok q /\ Forall cmd_ok l /\ snd (tables q "mcmc" [TParams; TDerived] ok (session q l empty_world)) = Ok u /\
     p_derived (u_post u) = None /\ u_derived u = Some (d, n) /\ n <> u_chain u).
Proof.
  split; [|split].
  - exists "K2", l_refit. eexists. split; [exact path_k2|]. split; [apply l_ok; cbn; auto|]. split; [exact w_refit|]. cbn. discriminate.
  - exists "K2", l_stale. do 3 eexists. split; [exact path_k2|]. split; [apply l_ok; cbn; auto|]. split; [exact w_stale|]. split; [reflexivity|]. cbn. discriminate.
  - exists "K2", l_mixed. do 3 eexists. split; [exact path_k2|]. split; [apply l_ok; cbn; auto|]. split; [exact w_mixed|]. repeat split. cbn. discriminate.
Qed.
