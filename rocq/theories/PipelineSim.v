(** Simulation: every command. *)
From Coq Require Import String Ascii Arith Bool Lia List.
From Verif Require Import Py PyFacts Params Mass Status StatusProofs StatusSpec StatusRound StatusInv StatusThms Pipeline PipelineSpec PipelineProofs.
Import ListNotations.
Open Scope string_scope.

Ltac fnames := unfold f_post, f_post_ns, f_chain, f_chain_ns, f_summary, f_summary_ns, f_auto, f_dquant, f_dchain, f_nsdir in *.
Ltac fneq := let X := fresh in intro X; fnames; apply app_cancel in X; discriminate X.
Ltac fget := repeat first [rewrite dget_dset_same | rewrite dget_dset_other by fneq].
Ltac secs := cbn [String.eqb Ascii.eqb Bool.eqb orb].

(** one save in a section, seen from the machine *)
Section SaveIn.
Variables (q : string) (c c' : config) (sec : string) (vars : dict string).
Hypothesis D : c_def c' = c_def c.
Hypothesis H : forall s, has_section c' s = String.eqb sec s || has_section c s.
Hypothesis S : forall s k, status c' s k = if String.eqb sec s then match last_in vars k with Some v => Some v | None => status c s k end else status c s k.

Lemma in_fit s p : relc q c s -> sec = "fit" -> vars = [("run", "True"); ("postfile", f_post q)] ->
  relc q c' (mkStage true (Some p) (s_mcmc s) (s_ns s) (s_derived s) (s_ic s) (s_plot s)).
Proof.
  intros [r0 r1 r2 r3 r4 r5 r6 r7 r8 r9 r10 r11] E V. rewrite E in H, S. rewrite V in S.
  constructor; cbn [s_fit s_post s_mcmc s_ns s_derived s_ic s_plot]; rewrite ?H, ?S; secs; rewrite ?S; secs; auto; [congruence| |].
  - intros _. repeat split; cbn; auto. discriminate.
  - intro X. destruct (r4 X) as (a1 & a2 & a3 & a4 & a5). repeat split; auto; [discriminate|]. intros k K. rewrite S. secs. now apply a5.
Qed.
Lemma in_mcmc s p n x : relc q c s -> sec = "mcmc" -> vars = mcmc_vars q x ->
  relc q c' (mkStage (s_fit s) (Some p) (Some n) (s_ns s) (s_derived s) (s_ic s) (s_plot s)).
Proof.
  intros [r0 r1 r2 r3 r4 r5 r6 r7 r8 r9 r10 r11] E V. rewrite E in H, S. rewrite V in S.
  constructor; cbn [s_fit s_post s_mcmc s_ns s_derived s_ic s_plot]; rewrite ?H, ?S; secs; rewrite ?S; secs; auto; [congruence| |].
  - intro X. destruct (r2 X) as (a1 & a2 & a3). repeat split; auto. discriminate.
  - intros _. repeat split; auto; [discriminate|]. intros k K. rewrite S. secs.
    cbn in K. repeat (destruct K as [<-|K]; [cbn; discriminate|]). destruct K.
Qed.
Lemma in_ns s p n kw : relc q c s -> kw_ok kw -> sec = "ns" -> vars = ns_vars q kw ->
  relc q c' (mkStage (s_fit s) (s_post s) (s_mcmc s) (Some (p, n)) (s_derived s) (s_ic s) (s_plot s)).
Proof.
  intros [r0 r1 r2 r3 r4 r5 r6 r7 r8 r9 r10 r11] K E V. rewrite E in H, S. rewrite V in S.
  constructor; cbn [s_fit s_post s_mcmc s_ns s_derived s_ic s_plot]; rewrite ?H, ?S; secs; rewrite ?S; secs; auto; [congruence| |].
  - intro X. destruct (r4 X) as (a1 & a2 & a3 & a4 & a5). repeat split; auto. intros k Q. rewrite S. secs. now apply a5.
  - intros _.
    rewrite (ns_last q kw K "run" "True"), (ns_last q kw K "postfile" (f_post_ns q)), (ns_last q kw K "chainfile" (f_chain_ns q)); cbn; tauto.
Qed.
Lemma in_derive s d sn : relc q c s -> sec = "derive" -> vars = [("run", "True"); ("quantfile", f_dquant q); ("chainfile", f_dchain q)] ->
  forall sp, isome sp = isome (s_post s) -> isome sn = isome (s_ns s) ->
  relc q c' (mkStage (s_fit s) sp (s_mcmc s) sn (Some d) (s_ic s) (s_plot s)).
Proof.
  intros [r0 r1 r2 r3 r4 r5 r6 r7 r8 r9 r10 r11] E V sp Ip In'. rewrite E in H, S. rewrite V in S.
  assert (Np : s_post s <> None -> sp <> None) by (destruct sp, (s_post s); cbn in Ip; congruence).
  constructor; cbn [s_fit s_post s_mcmc s_ns s_derived s_ic s_plot]; rewrite ?In'; rewrite ?H, ?S; secs; rewrite ?S; secs; auto; [congruence| |].
  - intro X. destruct (r2 X) as (a1 & a2 & a3). repeat split; auto.
  - intro X. destruct (r4 X) as (a1 & a2 & a3 & a4 & a5). repeat split; auto. intros k Q. rewrite S. secs. now apply a5.
Qed.
Lemma in_ic s t : relc q c s -> sec = "ic_compare" -> vars = [("ic", t)] ->
  relc q c' (mkStage (s_fit s) (s_post s) (s_mcmc s) (s_ns s) (s_derived s) true (s_plot s)).
Proof.
  intros [r0 r1 r2 r3 r4 r5 r6 r7 r8 r9 r10 r11] E V. rewrite E in H, S. rewrite V in S.
  constructor; cbn [s_fit s_post s_mcmc s_ns s_derived s_ic s_plot]; rewrite ?H, ?S; secs; rewrite ?S; secs; auto; [congruence| |].
  - intro X. destruct (r4 X) as (a1 & a2 & a3 & a4 & a5). repeat split; auto. intros k Q. rewrite S. secs. now apply a5.
  - intros _. cbn. discriminate.
Qed.
Lemma in_plot s : relc q c s -> sec = "plot" ->
  relc q c' (mkStage (s_fit s) (s_post s) (s_mcmc s) (s_ns s) (s_derived s) (s_ic s) true).
Proof.
  intros [r0 r1 r2 r3 r4 r5 r6 r7 r8 r9 r10 r11] E. rewrite E in H, S.
  constructor; cbn [s_fit s_post s_mcmc s_ns s_derived s_ic s_plot]; rewrite ?H, ?S; secs; rewrite ?S; secs; auto; [congruence|].
  intro X. destruct (r4 X) as (a1 & a2 & a3 & a4 & a5). repeat split; auto. intros k Q. rewrite S. secs. now apply a5.
Qed.
End SaveIn.

Definition sim (q : string) (m : M unit) (r : stage * res unit) (w : world) : Prop :=
  (exists c', rel q (fst (m w)) (fst r) c') /\ snd (m w) = snd r.

Lemma sim_fit q n i r w s c : path_ok q -> rel q w s c -> sim q (fit q n i r) (step (Fit n i r) s) w.
Proof.
  intros P (L & Rc & Rf). unfold sim, fit, mbind, mlift, step. destruct i as [[]|e]; cbn [bind]; [|split; [exists c; exact (conj L (conj Rc Rf))|reflexivity]].
  destruct r as [[]|e]; cbn; [|split; [exists c; exact (conj L (conj Rc Rf))|reflexivity]].
  destruct (save_spec (mkW (w_status w) (dset (w_files w) (f_post q) (CPost (mkPost n false None)))) _ _ c L (ok_fit q P)) as (w' & c' & E & F & L' & D & H & S).
  rewrite E. cbn. split; [|reflexivity]. exists c'. split; [exact L'|]. split.
  - eapply in_fit; eauto.
  - rewrite F. cbn. destruct Rf as [A B C D' E']. constructor; cbn [s_post s_mcmc s_ns s_derived]; fget; auto.
Qed.

Lemma get_rel q c s sec k v : relc q c s -> sec <> "DEFAULT" -> status c sec k = Some v -> cfg_get c sec k = Ok v.
Proof. intros R N E. rewrite get_spec by (auto; apply R). now rewrite E. Qed.

Lemma sim_mcmc q n i r x w s c : path_ok q -> (forall k, val_ok (x k)) -> rel q w s c -> sim q (mcmc q n i r x) (step (Mcmc n i r x) s) w.
Proof.
  intros P X (L & Rc & Rf). assert (Same : exists c', rel q w s c') by (exists c; exact (conj L (conj Rc Rf))).
  unfold sim, mcmc, mbind, mlift, status_now, step. rewrite L. destruct i as [[]|e]; cbn [bind]; [|split; [exact Same|reflexivity]].
  rewrite (getb_fit q c s Rc). destruct (s_fit s) eqn:Ef; [|split; [exact Same|reflexivity]].
  destruct (rc_fit1 _ _ _ Rc Ef) as (_ & Hp & Np).
  rewrite (get_rel q c s "fit" "postfile" (f_post q) Rc) by easy.
  unfold load_post. rewrite (rf_post _ _ _ Rf). destruct (s_post s) as [p|]; [|easy]. cbn [option_map].
  destruct r as [[]|e]; cbn [bind]; [|split; [exact Same|reflexivity]].
  unfold put; cbn [w_status w_files].
  match goal with |- context [save "mcmc" _ ?w1] => destruct (save_spec w1 _ _ c L (ok_mcmc q x P X)) as (w' & c' & E & F & L' & D & H & S) end.
  rewrite E. cbn. split; [|reflexivity]. exists c'. split; [exact L'|]. split.
  - rewrite <- Ef. eapply in_mcmc; eauto.
  - rewrite F. cbn. destruct Rf as [A B C D' E']. constructor; cbn [s_post s_mcmc s_ns s_derived]; fget; auto.
Qed.

Lemma sim_ns q n i r kw w s c : path_ok q -> kw_ok kw -> rel q w s c -> sim q (nested q n i r kw) (step (Nested n i r kw) s) w.
Proof.
  intros P X (L & Rc & Rf). assert (Same : exists c', rel q w s c') by (exists c; exact (conj L (conj Rc Rf))).
  unfold sim, nested, mbind, mlift, status_now, step. rewrite L. destruct i as [[]|e]; cbn [bind]; [|split; [exact Same|reflexivity]].
  destruct r as [[]|e]; cbn [bind]; [|split; [exact Same|reflexivity]].
  unfold put; cbn [w_status w_files].
  match goal with |- context [save "ns" _ ?w1] => destruct (save_spec w1 _ _ c L (ok_ns q kw P X)) as (w' & c' & E & F & L' & D & H & S) end.
  rewrite E. cbn. split; [|reflexivity]. exists c'. split; [exact L'|]. split.
  - eapply in_ns; eauto.
  - rewrite F. cbn. destruct Rf as [A B C D' E']. constructor; cbn [s_post s_mcmc s_ns s_derived]; fget; auto.
Qed.

Lemma pick_mcmc_ns sampler s x : pick sampler s = Ok x -> x = "mcmc" /\ isome (s_mcmc s) = true \/ x = "ns" /\ isome (s_ns s) = true.
Proof.
  unfold pick, choose. destruct (isome (s_mcmc s)), (isome (s_ns s)), (String.eqb sampler "auto"), (String.eqb sampler "mcmc"), (String.eqb sampler "ns"); cbn; intro H; inversion H; auto.
Qed.
(** files of a sampler *)
Lemma results_rel q c f s x : relc q c s -> relf q f s -> x = "mcmc" /\ isome (s_mcmc s) = true \/ x = "ns" /\ isome (s_ns s) = true ->
  exists p n pf cf, results x s = Some (p, n) /\ cfg_get c x "postfile" = Ok pf /\ cfg_get c x "chainfile" = Ok cf /\
    dget f pf = Some (CPost p) /\ dget f cf = Some (CChain n) /\
    pf = (if String.eqb x "mcmc" then f_post q else f_post_ns q).
Proof.
  intros Rc Rf [(-> & I)|(-> & I)].
  - destruct (rc_mc1 _ _ _ Rc I) as (a1 & a2 & a3 & a4 & a5). pose proof (rf_post _ _ _ Rf) as B1. pose proof (rf_chain _ _ _ Rf) as B2.
    unfold results. secs. destruct (s_mcmc s) as [n|]; [|easy]. destruct (s_post s) as [p|]; [|easy].
    exists p, n, (f_post q), (f_chain q). repeat split; auto; [now apply (get_rel q c s)|now apply (get_rel q c s)].
  - destruct (rc_ns1 _ _ _ Rc I) as (a1 & a2 & a3). pose proof (rf_post_ns _ _ _ Rf) as B1. pose proof (rf_chain_ns _ _ _ Rf) as B2.
    unfold results. secs. destruct (s_ns s) as [[p n]|]; [|easy].
    exists p, n, (f_post_ns q), (f_chain_ns q). repeat split; auto; [now apply (get_rel q c s)|now apply (get_rel q c s)].
Qed.

Lemma sim_derive q n sampler i r st w s c : path_ok q -> rel q w s c -> sim q (derive q n sampler i r st) (step (Derive n sampler i r st) s) w.
Proof.
  intros P (L & Rc & Rf). assert (Same : exists c', rel q w s c') by (exists c; exact (conj L (conj Rc Rf))).
  unfold sim, derive, mbind, mlift, status_now, step. rewrite L, (pick_rel q c s sampler Rc).
  destruct (pick sampler s) as [x|e] eqn:Ep; cbn [bind]; [|split; [exact Same|reflexivity]].
  destruct i as [[]|e]; cbn [bind]; [|split; [exact Same|reflexivity]].
  destruct (results_rel q c (w_files w) s x Rc Rf (pick_mcmc_ns _ _ _ Ep)) as (p & ch & pf & cf & Er & Gp & Gc & Fp & Fc & Epf).
  rewrite Er, Gp. unfold load_post, read_chain. rewrite Fp, Gc. rewrite Fc.
  destruct st; cbn [negb]; [|split; [exact Same|reflexivity]].
  destruct r as [[]|e]; [|split; [exact Same|reflexivity]].
  unfold put; cbn [w_status w_files].
  match goal with |- context [save "derive" _ ?w1] => destruct (save_spec w1 _ _ c L (ok_derive q P)) as (w' & c' & E & F & L' & D & H & S) end.
  rewrite E. cbn [fst snd]. split; [|reflexivity]. exists c'. split; [exact L'|].
  destruct (pick_mcmc_ns _ _ _ Ep) as [(-> & I)|(-> & I)]; cbn [String.eqb Ascii.eqb Bool.eqb] in Er, Epf |- *; subst pf; unfold results in Er; cbn in Er.
  - split.
    + eapply in_derive; eauto. destruct (s_mcmc s), (s_post s); try discriminate; reflexivity.
    + rewrite F. cbn. destruct Rf as [A B C D' E']. constructor; cbn [s_post s_mcmc s_ns s_derived]; fget; auto.
  - split.
    + eapply in_derive; eauto.
    + rewrite F. cbn. destruct Rf as [A B C D' E']. rewrite Er in C, D'. constructor; cbn [s_post s_mcmc s_ns s_derived]; fget; auto.
Qed.

Lemma sim_ic q i r t w s c : val_ok t -> rel q w s c -> sim q (ic q i r t) (step (Ic i r t) s) w.
Proof.
  intros X (L & Rc & Rf). assert (Same : exists c', rel q w s c') by (exists c; exact (conj L (conj Rc Rf))).
  unfold sim, ic, mbind, mlift, status_now, step. rewrite L. destruct i as [[]|e]; cbn [bind]; [|split; [exact Same|reflexivity]].
  rewrite (getb_fit q c s Rc). destruct (s_fit s) eqn:Ef; [|split; [exact Same|reflexivity]]. cbn [massert mret].
  destruct (rc_fit1 _ _ _ Rc Ef) as (_ & Hp & Np).
  rewrite (get_rel q c s "fit" "postfile" (f_post q) Rc) by easy.
  unfold load_post. rewrite (rf_post _ _ _ Rf). destruct (s_post s) as [p|] eqn:Es; [|easy]. cbn [option_map].
  destruct r as [[]|e]; cbn [bind]; [|split; [exact Same|reflexivity]].
  destruct (save_spec w _ _ c L (ok_ic t X)) as (w' & c' & E & F & L' & D & H & S).
  rewrite E. cbn. split; [|reflexivity]. exists c'. split; [exact L'|]. split.
  - pose proof (in_ic q c c' _ _ D H S s t Rc eq_refl eq_refl) as Q. rewrite Ef, Es in Q. exact Q.
  - rewrite F. cbn. destruct Rf as [A B C D' E']. constructor; cbn [s_post s_mcmc s_ns s_derived]; fget; auto. now rewrite A, Es.
Qed.

Lemma get_some q c s sec k : relc q c s -> sec <> "DEFAULT" -> status c sec k <> None -> exists v, cfg_get c sec k = Ok v.
Proof. intros R N E. rewrite get_spec by (auto; apply R). destruct (status c sec k); [eauto|easy]. Qed.

Lemma gather_rel q w s c sampler x : rel q w s c -> pick sampler s = Ok x ->
  exists u, use sampler s = Ok u /\ gather c x w = (w, Ok u) /\ u_derived u = s_derived s.
Proof.
  intros (L & Rc & Rf) Ep. pose proof (pick_mcmc_ns _ _ _ Ep) as X.
  destruct (results_rel q c (w_files w) s x Rc Rf X) as (p & ch & pf & cf & Er & Gp & Gc & Fp & Fc & Epf).
  exists (mkUsed x p ch (s_derived s)). unfold use. rewrite Ep. cbn [bind]. rewrite Er. split; [reflexivity|]. split; [|reflexivity].
  assert (T : forall B (f : unit -> M B), mbind (if String.eqb x "mcmc" then
              dom _ <- mlift (cfg_get c "mcmc" "minafactor");
              dom _ <- mlift (cfg_get c "mcmc" "maxarchange");
              dom _ <- mlift (cfg_get c "mcmc" "maxgr");
              dom _ <- mlift (cfg_get c "mcmc" "mintz"); mret tt
            else mret tt) f w = f tt w).
  { intros B f. destruct X as [(-> & I)|(-> & I)]; [|reflexivity]. secs.
    destruct (rc_mc1 _ _ _ Rc I) as (_ & _ & _ & _ & a5).
    destruct (get_some q c s "mcmc" "minafactor" Rc) as (v1 & G1); [easy|apply a5; cbn; tauto|].
    destruct (get_some q c s "mcmc" "maxarchange" Rc) as (v2 & G2); [easy|apply a5; cbn; tauto|].
    destruct (get_some q c s "mcmc" "maxgr" Rc) as (v3 & G3); [easy|apply a5; cbn; tauto|].
    destruct (get_some q c s "mcmc" "mintz" Rc) as (v4 & G4); [easy|apply a5; cbn; tauto|].
    unfold mbind, mlift. now rewrite G1, G2, G3, G4. }
  unfold gather. rewrite T. unfold mbind, mlift. rewrite Gc. unfold read_chain. rewrite Fc, Gp. unfold load_post. rewrite Fp.
  rewrite (rc_der _ _ _ Rc). pose proof (rc_der1 _ _ _ Rc) as De. pose proof (rf_dchain _ _ _ Rf) as Fd.
  destruct (s_derived s) as [[a b]|]; cbn [isome]; [|reflexivity].
  destruct (De eq_refl) as (d1 & d2). unfold getboolean.
  rewrite (get_rel q c s "derive" "run" "True" Rc), (get_rel q c s "derive" "chainfile" (f_dchain q) Rc) by easy. cbn [bind].
  change (to_boolean "True") with (@Ok bool true). cbv iota beta. unfold read_derived. rewrite Fd. reflexivity.
Qed.

Lemma has_option_ic q c s : relc q c s -> has_option c "ic_compare" "ic" = s_ic s.
Proof.
  intro R. unfold has_option. destruct (s_ic s) eqn:E.
  - destruct (get_some q c s "ic_compare" "ic" R) as (v & ->); [easy|now apply (rc_ic1 _ _ _ R)|reflexivity].
  - rewrite get_none; [reflexivity|easy|]. rewrite (rc_ic _ _ _ R). exact E.
Qed.
Lemma has_option_derive q c s : relc q c s -> has_option c "derive" "run" = isome (s_derived s).
Proof.
  intro R. unfold has_option. destruct (isome (s_derived s)) eqn:E.
  - destruct (rc_der1 _ _ _ R E) as (d1 & _). now rewrite (get_rel q c s "derive" "run" "True" R).
  - rewrite get_none; [reflexivity|easy|]. rewrite (rc_der _ _ _ R). exact E.
Qed.

Lemma tex_other q t : ~ In (q ++ "_" ++ ttext t ++ ".tex") (files_of q).
Proof. cbn. intro I. repeat (destruct I as [X|I]; [fnames; apply app_cancel in X; destruct t; discriminate X|]). exact I. Qed.
Lemma pdf_other q t : ~ In (pfile q t) (files_of q).
Proof. cbn. intro I. unfold pfile in I. repeat (destruct I as [X|I]; [fnames; apply app_cancel in X; destruct t; discriminate X|]). exact I. Qed.

Lemma table_one_sim q w s c c0 u t : path_ok q -> rel q w s c -> relc q c0 s -> u_derived u = s_derived s ->
  (exists c', rel q (fst (table_one q c0 u t w)) s c') /\ snd (table_one q c0 u t w) = table_needs s u t.
Proof.
  intros P (L & Rc & Rf) R0 Du. assert (Same : exists c', rel q w s c') by (exists c; exact (conj L (conj Rc Rf))).
  assert (Fin : forall (m : M unit) r, (forall w, m w = (w, r)) ->
    let k := (dom _ <- m; dom _ <- put (q ++ "_" ++ ttext t ++ ".tex") CText; save "table" [(ttext t ++ "_tex", q ++ "_" ++ ttext t ++ ".tex")]) in
    (exists c', rel q (fst (k w)) s c') /\ snd (k w) = r).
  { intros m r Hm. cbn zeta. unfold mbind at 1. unfold mbind at 2. rewrite Hm. destruct r as [[]|e]; [|split; [exact Same|reflexivity]].
    unfold mbind, put. cbn [w_status w_files].
    match goal with |- context [save "table" _ ?w1] => destruct (save_spec w1 _ _ c L (ok_table q t P)) as (w' & c' & E & F & L' & D & H & S) end.
    rewrite E. cbn [fst snd]. split; [|reflexivity]. exists c'. split; [exact L'|]. split.
    - exact (relc_other q c c' s _ _ Rc D H S eq_refl).
    - rewrite F. cbn. apply relf_other; [exact Rf|apply tex_other]. }
  unfold table_one. apply Fin. intro w0. unfold table_needs, need_max, massert, mbind, mret, mraise, mlift.
  rewrite (has_option_ic q c0 s R0), (has_option_derive q c0 s R0), Du.
  destruct t; try reflexivity; try (destruct (p_max (u_post u)); reflexivity); try (destruct (s_ic s); reflexivity).
  destruct (s_derived s) as [d|]; cbn; [|reflexivity]. destruct (p_max (u_post u)); reflexivity.
Qed.
Lemma tables_loop q s c0 u : path_ok q -> relc q c0 s -> u_derived u = s_derived s -> forall l w c, rel q w s c ->
  (exists c', rel q (fst (meach l (table_one q c0 u) w)) s c') /\ snd (meach l (table_one q c0 u) w) = for_each l (fun _ t => table_needs s u t) tt.
Proof.
  intros P R0 Du. induction l as [|t l IH]; intros w c R; cbn [meach for_each].
  - split; [exists c; exact R|reflexivity].
  - destruct (table_one_sim q w s c c0 u t P R R0 Du) as ((c1 & R1) & E1). unfold mbind.
    destruct (table_one q c0 u t w) as [w1 r1]. cbn [fst snd] in R1, E1. subst r1. destruct (table_needs s u t) as [[]|e]; cbn [bind].
    + apply (IH w1 c1 R1).
    + split; [exists c1; exact R1|reflexivity].
Qed.

(** tables: besides, what they are made from *)
Lemma tables_rel q sampler l i w s c : path_ok q -> rel q w s c ->
  (exists c', rel q (fst (tables q sampler l i w)) s c') /\
  snd (tables q sampler l i w) = (do _ <- i; do u <- use sampler s; do _ <- for_each l (fun _ t => table_needs s u t) tt; Ok u).
Proof.
  intros P R. assert (Same : exists c', rel q w s c') by (exists c; exact R). destruct R as (L & Rc & Rf).
  unfold tables, mbind, mlift, status_now. rewrite L. destruct i as [[]|e]; cbn [bind]; [|split; [exact Same|reflexivity]].
  rewrite (pick_rel q c s sampler Rc). destruct (pick sampler s) as [x|e] eqn:Ep; [|unfold use; rewrite Ep; split; [exact Same|reflexivity]].
  destruct (gather_rel q w s c sampler x (conj L (conj Rc Rf)) Ep) as (u & Eu & Eg & Du). rewrite Eu, Eg. cbn [bind].
  destruct (tables_loop q s c u P Rc Du l w c (conj L (conj Rc Rf))) as (X1 & X2).
  destruct (meach l (table_one q c u) w) as [w1 r1]. cbn [fst snd] in X1, X2. subst r1.
  destruct (for_each l (fun _ t => table_needs s u t) tt) as [[]|e]; split; auto.
Qed.
Lemma sim_tables q sampler l i w s c : path_ok q -> rel q w s c -> sim q (forget (tables q sampler l i)) (step (Tables sampler l i) s) w.
Proof.
  intros P R. destruct (tables_rel q sampler l i w s c P R) as (A & B). unfold sim, forget, mbind. cbn [step].
  destruct (tables q sampler l i w) as [w1 r1]. cbn [fst snd] in A, B. subst r1.
  destruct i as [[]|e]; cbn [bind]; [|split; auto]. destruct (use sampler s) as [u|e]; cbn [bind]; [|split; auto].
  destruct (for_each l (fun _ t => table_needs s u t) tt) as [[]|e]; split; auto.
Qed.

Lemma report_rel q sampler i w s c : path_ok q -> rel q w s c ->
  (exists c', rel q (fst (report q sampler i w)) s c') /\
  snd (report q sampler i w) = (do _ <- pick sampler s; do _ <- i; do u <- use sampler s;
                                if negb (s_plot s) then Err PlainException else if p_max (u_post u) then Ok u else Err AttributeError).
Proof.
  intros P R. assert (Same : exists c', rel q w s c') by (exists c; exact R). destruct R as (L & Rc & Rf).
  unfold report, mbind, mlift, status_now. rewrite L.
  rewrite (pick_rel q c s sampler Rc). destruct (pick sampler s) as [x|e] eqn:Ep; cbn [bind]; [|split; [exact Same|reflexivity]].
  destruct i as [[]|e]; cbn [bind]; [|split; [exact Same|reflexivity]].
  destruct (gather_rel q w s c sampler x (conj L (conj Rc Rf)) Ep) as (u & Eu & Eg & Du). rewrite Eu, Eg. cbn [bind].
  rewrite (rc_plot _ _ _ Rc). destruct (s_plot s) eqn:Epl; [|split; [exact Same|reflexivity]]. cbn [negb mret]. unfold need_max.
  destruct (p_max (u_post u)); [|split; [exact Same|reflexivity]]. cbn. split; [|reflexivity].
  exists c. split; [exact L|]. split; [exact Rc|]. apply relf_other; [apply relf_other; [exact Rf|]|];
    (cbn; intro I; repeat (destruct I as [X|I]; [fnames; apply app_cancel in X; discriminate X|]); exact I).
Qed.
Lemma sim_report q sampler i w s c : path_ok q -> rel q w s c -> sim q (forget (report q sampler i)) (step (Report sampler i) s) w.
Proof.
  intros P R. destruct (report_rel q sampler i w s c P R) as (A & B). unfold sim, forget, mbind. cbn [step].
  destruct (report q sampler i w) as [w1 r1]. cbn [fst snd] in A, B. subst r1.
  destruct (pick sampler s) as [x|e]; cbn [bind]; [|split; auto].
  destruct i as [[]|e]; cbn [bind]; [|split; auto]. destruct (use sampler s) as [u|e]; cbn [bind]; [|split; auto].
  destruct (s_plot s); cbn [negb]; [|split; auto]. destruct (p_max (u_post u)); split; auto.
Qed.

Lemma plot_chain_rel q w s c sampler corner : relc q c s -> relf q (w_files w) s ->
  plot_chain c sampler corner w = (w, do x <- pick sampler s; if corner then Ok tt else if String.eqb x "mcmc" then Ok tt else Err AssertionError).
Proof.
  intros Rc Rf. unfold plot_chain, mbind, mlift. rewrite (pick_rel q c s sampler Rc).
  destruct (pick sampler s) as [x|e] eqn:Ep; cbn [bind]; [|reflexivity].
  pose proof (pick_mcmc_ns _ _ _ Ep) as X.
  destruct (results_rel q c (w_files w) s x Rc Rf X) as (p & ch & pf & cf & Er & Gp & Gc & Fp & Fc & Epf).
  assert (Sr : cfg_get c x "run" = Ok "True").
  { destruct X as [(-> & I)|(-> & I)]; [destruct (rc_mc1 _ _ _ Rc I) as (a1 & _)|destruct (rc_ns1 _ _ _ Rc I) as (a1 & _)]; now apply (get_rel q c s). }
  destruct corner.
  - unfold getboolean. rewrite Sr. cbn [bind]. change (to_boolean "True") with (@Ok bool true). cbv iota beta. cbn [massert mret].
    unfold massert, mret. rewrite Gc. unfold read_chain. now rewrite Fc.
  - unfold massert. destruct X as [(-> & I)|(-> & I)]; [|reflexivity]. secs. cbn [mret].
    destruct (rc_mc1 _ _ _ Rc I) as (_ & _ & _ & _ & a5).
    destruct (get_some q c s "mcmc" "autocorrfile" Rc) as (v1 & G1); [easy|apply a5; cbn; tauto|]. rewrite G1. cbv beta iota delta [mret]. rewrite Gc. cbv beta iota delta [read_chain]. now rewrite Fc.
Qed.
Lemma plot_one_sim q w s s0 c c0 sampler t : path_ok q -> rel q w s c -> relc q c0 s0 -> relf q (w_files w) s0 ->
  match plot_needs s0 sampler t with
  | Ok _ => (exists c', rel q (fst (plot_one q c0 sampler t w)) (mkStage (s_fit s) (s_post s) (s_mcmc s) (s_ns s) (s_derived s) (s_ic s) true) c') /\
            relf q (w_files (fst (plot_one q c0 sampler t w))) s0 /\ snd (plot_one q c0 sampler t w) = Ok tt
  | Err e => plot_one q c0 sampler t w = (w, Err e)
  end.
Proof.
  intros P (L & Rc & Rf) R0 Rf0.
  assert (Fin : forall (m : M unit) r, m w = (w, r) ->
    let k := (dom _ <- m; dom _ <- put (pfile q t) CText; save "plot" [(ptext t ++ "_plot", pfile q t)]) in
    match r with
    | Ok _ => (exists c', rel q (fst (k w)) (mkStage (s_fit s) (s_post s) (s_mcmc s) (s_ns s) (s_derived s) (s_ic s) true) c') /\
              relf q (w_files (fst (k w))) s0 /\ snd (k w) = Ok tt
    | Err e => k w = (w, Err e)
    end).
  { intros m r Hm. cbn zeta. unfold mbind at 1. unfold mbind. rewrite Hm. destruct r as [[]|e]; [|reflexivity].
    unfold put. cbn [w_status w_files].
    match goal with |- context [save "plot" _ ?w1] => destruct (save_spec w1 _ _ c L (ok_plot q t P)) as (w' & c' & E & F & L' & D & H & S) end.
    rewrite E. cbn [fst snd]. split; [|split; [|reflexivity]].
    - exists c'. split; [exact L'|]. split; [exact (in_plot q c c' _ _ D H S s Rc eq_refl)|].
      rewrite F. cbn. pose proof (relf_other q _ _ (pfile q t) CText Rf (pdf_other q t)) as [A B C D' E']. now constructor.
    - rewrite F. cbn. apply relf_other; [exact Rf0|apply pdf_other]. }
  unfold plot_one. apply (Fin _ (plot_needs s0 sampler t)). destruct t; cbn [plot_needs].
  - reflexivity.
  - rewrite (plot_chain_rel q w s0 c0 sampler false R0 Rf0). reflexivity.
  - rewrite (plot_chain_rel q w s0 c0 sampler true R0 Rf0). reflexivity.
  - unfold mbind at 1. rewrite (plot_chain_rel q w s0 c0 sampler false R0 Rf0).
    destruct (pick sampler s0) as [x|e] eqn:Ep; cbn [bind]; [|reflexivity].
    destruct (pick_mcmc_ns _ _ _ Ep) as [(-> & I)|(-> & I)]; [|reflexivity]. secs.
    destruct (rc_mc1 _ _ _ R0 I) as (_ & _ & _ & _ & a5).
    destruct (get_some q c0 s0 "mcmc" "nwalkers" R0) as (v1 & G1); [easy|apply a5; cbn; tauto|].
    destruct (get_some q c0 s0 "mcmc" "nensembles" R0) as (v2 & G2); [easy|apply a5; cbn; tauto|].
    unfold mbind, mlift. now rewrite G1, G2.
  - unfold mbind, mlift, massert. rewrite (rc_der _ _ _ R0). pose proof (rc_der1 _ _ _ R0) as De. pose proof (rf_dchain _ _ _ Rf0) as Fd.
    destruct (s_derived s0) as [[a b]|]; cbn [isome]; [|reflexivity]. destruct (De eq_refl) as (d1 & d2). cbn [mret].
    rewrite (get_rel q c0 s0 "derive" "chainfile" (f_dchain q) R0) by easy. unfold read_derived. now rewrite Fd.
Qed.
Lemma plots_loop q s0 c0 sampler : path_ok q -> relc q c0 s0 -> forall l w s c, rel q w s c -> relf q (w_files w) s0 ->
  (exists c', rel q (fst (meach l (plot_one q c0 sampler) w)) (fst (plot_all s s0 sampler l)) c') /\
  snd (meach l (plot_one q c0 sampler) w) = snd (plot_all s s0 sampler l).
Proof.
  intros P R0. induction l as [|t l IH]; intros w s c R Rf0; cbn [meach plot_all].
  - split; [exists c; exact R|reflexivity].
  - pose proof (plot_one_sim q w s s0 c c0 sampler t P R R0 Rf0) as X. unfold mbind.
    destruct (plot_needs s0 sampler t) as [[]|e].
    + destruct X as ((c1 & R1) & F1 & E1). destruct (plot_one q c0 sampler t w) as [w1 r1]. cbn [fst snd] in R1, F1, E1. subst r1.
      apply (IH w1 _ c1 R1 F1).
    + rewrite X. split; [exists c; exact R|reflexivity].
Qed.
Lemma sim_plots q sampler l i w s c : path_ok q -> rel q w s c -> sim q (plots q sampler l i) (step (Plots sampler l i) s) w.
Proof.
  intros P R. assert (Same : exists c', rel q w s c') by (exists c; exact R). destruct R as (L & Rc & Rf).
  unfold sim, plots, mbind, mlift, status_now, step. rewrite L. destruct i as [[]|e]; cbn [bind]; [|split; [exact Same|reflexivity]].
  rewrite (getb_fit q c s Rc). destruct (s_fit s) eqn:Ef; [|split; [exact Same|reflexivity]]. cbn [massert mret].
  destruct (rc_fit1 _ _ _ Rc Ef) as (_ & Hp & Np).
  rewrite (get_rel q c s "fit" "postfile" (f_post q) Rc) by easy.
  unfold load_post. rewrite (rf_post _ _ _ Rf). destruct (s_post s) as [p|] eqn:Es; [|easy]. cbn [option_map].
  apply (plots_loop q s c sampler P Rc l w s c (conj L (conj Rc Rf)) Rf).
Qed.

Theorem sim_exec q k w s c : path_ok q -> cmd_ok k -> rel q w s c ->
  (exists c', rel q (fst (exec q k w)) (fst (step k s)) c') /\ snd (exec q k w) = snd (step k s).
Proof.
  intros P O R. destruct k; cbn [cmd_ok] in O; cbn [exec].
  - apply (sim_fit q n init run w s c P R).
  - apply (sim_mcmc q n init run x w s c P O R).
  - apply (sim_ns q n init run kw w s c P O R).
  - apply (sim_derive q n sampler init run stellar w s c P R).
  - apply (sim_ic q init run stats w s c O R).
  - apply (sim_tables q sampler types init w s c P R).
  - apply (sim_plots q sampler types init w s c P R).
  - apply (sim_report q sampler init w s c P R).
Qed.
Theorem sim_session q l : path_ok q -> Forall cmd_ok l -> forall w s c, rel q w s c -> exists c', rel q (session q l w) (steps l s) c'.
Proof.
  intros P F. induction F as [|k l O F IH]; intros w s c R; cbn [session steps]; [exists c; exact R|].
  destruct (sim_exec q k w s c P O R) as ((c1 & R1) & _). eapply IH; eauto.
Qed.
