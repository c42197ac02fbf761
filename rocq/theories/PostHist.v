(** C18 for posteriors; counterexamples for C18, C21 and C28. *)
From Coq Require Import Reals String Ascii Arith ZArith Bool Lia Lra List.
From Verif Require Import Py PyFloat PyFacts PyFloatFacts Params ParamsProofs ParamsSpec VectorProofs Kepler Basis RVModel Likelihood LikeSpec LikeProofs LikeHist LikeBuild Prior PriorSpec PriorProofs Posterior PostProofs.
Import ListNotations.
Open Scope R_scope.
#[local] Arguments key : simpl never.

(** names of the parameters a prior looks up *)
Definition prior_reads (p : prior) : list string :=
  match p with
  | PGaussian s _ _ | PHard s _ _ | PJeffreys s _ _ _ | PModJeffreys s _ _ _ _ | PBaseline s _ _ => [s]
  | PNumerical l _ _ | PUser l _ _ => l
  | PEcc pl _ => flat_map (fun n => map (fun p => key p n) PNAMES) pl
  | PPosK num => flat_map (fun n => map (fun p => key p n) PNAMES) (seq 1 num)
  | _ => []
  end.

(** the prior does not depend on the values of the rows in [G] *)
Definition prior_blind (pb : basis) (idx : dict nat) (G : nat -> Prop) (p : prior) : Prop :=
  (forall s i, In s (prior_reads p) -> dget idx s = Some i -> ~ G i) /\
  match p with
  | PSecEcl n _ _ => (1 <= n <= b_num pb)%nat /\ forall i, (i < 5 * b_num pb)%nat -> ~ G i
  | PCustom _ _ _ f _ => forall b v w, agree G v w -> f b idx v = f b idx w
  | _ => True
  end.

Lemma rowval_agree G idx v w s : agree G v w -> (forall i, dget idx s = Some i -> ~ G i) -> rowval idx v s = rowval idx w s.
Proof.
  intros A H. unfold rowval, dget_res. destruct (dget idx s) as [i|]; auto. cbn [bind]. apply (vget_agree _ _ _ _ A). auto.
Qed.

Lemma prior_agree finite pb idx G p v w : prior_blind pb idx G p -> agree G v w ->
  prior_eval finite pb idx v p = prior_eval finite pb idx w p.
Proof.
  intros [HR HX] A.
  assert (forall s, In s (prior_reads p) -> rowval idx v s = rowval idx w s) as RV.
  { intros s Hs. apply (rowval_agree G); auto. intros i Hi. eapply HR; eauto. }
  assert (forall l, (forall s, In s l -> rowval idx v s = rowval idx w s) -> map_res (rowval idx v) l = map_res (rowval idx w) l) as MR.
  { intros l H. apply map_res_ext. auto. }
  destruct p; cbn [prior_eval prior_reads] in *; try (rewrite RV by (now left); reflexivity); try (rewrite MR by auto; reflexivity); auto.
  - unfold ecc_call. f_equal. revert upperlims. induction planets as [|n pl IH]; intro lims; auto. cbn [ecc_loop].
    assert (ecc_of (split (b_name pb)) idx v n = ecc_of (split (b_name pb)) idx w n) as ->.
    { assert (forall q, In q PNAMES -> rowval idx v (key q n) = rowval idx w (key q n)) as RQ.
      { intros q Hq. apply RV. cbn [flat_map]. apply in_or_app. left. apply in_map_iff. eauto. }
      unfold ecc_of. rewrite !RQ by (cbn; tauto). reflexivity. }
    destruct (ecc_of _ idx w n); auto. cbn [bind]. destruct lims as [|u lims]; auto. destruct (_ || _); auto. apply IH; auto.
    + intros s i Hs. apply HR. cbn [flat_map]. apply in_or_app. now right.
    + intros s Hs. apply RV. cbn [flat_map]. apply in_or_app. now right.
  - assert (forall ns, (forall n, In n ns -> In n (seq 1 num_planets)) -> posk_loop finite idx v ns = posk_loop finite idx w ns) as Q; [|apply Q; auto].
    induction ns as [|n ns IH]; intro H; auto. cbn [posk_loop].
    assert (forall p, In p PNAMES -> In (key p n) (flat_map (fun n => map (fun p => key p n) PNAMES) (seq 1 num_planets))) as HI.
    { intros p Hp. apply in_flat_map. exists n. split; auto with datatypes. apply in_map_iff. eauto. }
    assert (k_of idx v n = k_of idx w n) as ->.
    { unfold k_of. rewrite (RV (key "logk" n)) by (apply HI; cbn; tauto). destruct (dget idx (key "k" n)) as [i|] eqn:E; auto.
      apply (vget_agree _ _ _ _ A). eapply HR; [apply HI|eauto]. cbn; tauto. }
    destruct (k_of idx w n); auto. cbn [bind]. destruct (rltb _ 0); auto. apply IH. auto with datatypes.
  - destruct HX as [HN HG]. unfold sececl_call.
    assert (upto (5 * b_num pb) v w) as U.
    { intros i Hi. apply (agree_get _ _ _ _ A). auto. }
    pose proof (v_to_synth_upto pb v w false None U) as Q.
    destruct (v_to_synth pb v false None) as [v1|e], (v_to_synth pb w false None) as [w1|e']; cbn [bind]; try contradiction; try (now subst).
    rewrite !(upto_vget (5 * b_num pb) v1 w1) by (auto; lia). reflexivity.
Qed.

Section PostHist.
  Variables (pb : basis) (idx : dict nat) (lp : list row -> list row * res ext) (rs : list row -> list row * res (list R)).
  Variables (G : nat -> Prop) (v0 : list row) (ps : list prior).
  Hypothesis LF : frame_ok G v0 lp.
  Hypothesis LB : blind_to G v0 lp.
  Hypothesis RF : frame_ok G v0 rs.
  Hypothesis PB : forall p, In p ps -> prior_blind pb idx G p.

  Lemma sum_agree v w : agree G v w -> forall acc, sum_priors (prior_call pb idx v) ps acc = sum_priors (prior_call pb idx w) ps acc.
  Proof.
    intro A. unfold sum_priors. intro acc. apply for_each_ext'. intros s p Hp. unfold prior_call. rewrite (prior_agree false pb idx G p v w); auto.
  Qed.

  Lemma post_frame : frame_ok G v0 (post_logprob pb idx lp ps).
  Proof.
    intros v S. unfold post_logprob. destruct (sum_priors _ _ _) as [s|]; [|apply agree_refl].
    destruct (isfinite s); [|apply agree_refl]. pose proof (LF v S) as Q. destruct (lp v). exact Q.
  Qed.

  Lemma post_blind : blind_to G v0 (post_logprob pb idx lp ps).
  Proof.
    intros v w S A. unfold post_logprob. rewrite (sum_agree v w A). destruct (sum_priors _ _ _) as [s|]; auto.
    destruct (isfinite s); auto. pose proof (LB v w S A) as Q. destruct (lp v), (lp w). cbn [snd] in *. now subst.
  Qed.

  Lemma post_history c0 cs vals : cache_fresh c0 v0 ->
    let post := post_logprob pb idx lp ps in
    snd (logprob_array post (run post rs (v0, c0) cs) vals) = snd (logprob_array post (v0, c0) vals).
  Proof.
    intros C post. apply (history_independent _ _ G); auto; [apply post_frame|apply post_blind].
  Qed.
End PostHist.

(** some likelihood marginalises analytically over the offset named [s] *)
Definition offset_marginalised (ls : list rvlike) (v0 : list row) (s : string) : Prop :=
  exists l g, In l ls /\ s = l_gamma l /\ nth_error v0 (l_gidx l) = Some g /\ marginalised g = true.

(** the priors: none is attached to a marginalised offset, eclipse priors are on
    existing planets, user classes look at no marginalised offset *)
Definition prior_admissible (num : nat) (ls : list rvlike) (v0 : list row) (idx : dict nat) (p : prior) : Prop :=
  (forall s, In s (prior_reads p) -> ~ offset_marginalised ls v0 s) /\
  match p with
  | PSecEcl n _ _ => (1 <= n <= num)%nat
  | PCustom _ _ _ f _ => forall b v w, agree (fun i => exists l, In l ls /\ i = l_gidx l) v w -> f b idx v = f b idx w
  | _ => True
  end.

Lemma admissible_blind pb idx n ls v0 p : idx_ok (b_num pb) idx n -> (forall l, In l ls -> like_ok (b_num pb) idx l) ->
  prior_admissible (b_num pb) ls v0 idx p -> prior_blind pb idx (marg_rows ls v0) p.
Proof.
  intros HI HL [HA HX]. split.
  - intros s i Hs Hi (l & g & Hl & -> & Hg & Hm). apply (HA s Hs). exists l, g. split; auto. split; [|auto].
    apply (io_inj _ _ _ HI s (l_gamma l) (l_gidx l)); auto.
    + apply (like_gidx _ _ _ _ HI). auto.
    + apply (lo_gidx _ _ _ (HL l Hl)).
  - destruct p; auto.
    + split; auto. intros i Hi (l & g & Hl & -> & _). pose proof (like_gidx _ _ _ _ HI (HL l Hl)). lia.
    + intros b v w A. apply HX. eapply agree_weaken; [|exact A]. intros i (l & g & Hl & -> & _). eauto.
Qed.

(** C18 for posteriors over likelihoods from the constructors *)
Theorem posterior_history h ps b names vec ds h1 ps1 vec1 ls use_c fuel tb c0 cs vals priors :
  layout (ps_num ps) b names (dkeys (ps_items ps)) -> b_num (ps_basis ps) = ps_num ps ->
  vector_init h ps = Ok vec -> build_likes h ps vec ds = Ok (h1, ps1, vec1, ls) ->
  let v0 := v_vector vec1 in
  cache_fresh c0 v0 ->
  (forall p, In p priors -> prior_admissible (ps_num ps) ls v0 (v_indices vec1) p) ->
  let fwd := rv_forward use_c fuel ps1 (v_indices vec1) (v_names vec1) tb in
  let ms := map (rv_member fwd) ls in
  let post := post_logprob (ps_basis ps1) (v_indices vec1) (comp_logprob ms) priors in
  snd (logprob_array post (run post (comp_residuals ms) (v0, c0) cs) vals) = snd (logprob_array post (v0, c0) vals) /\
  forall l, In l ls ->
    let post := post_logprob (ps_basis ps1) (v_indices vec1) (rv_logprob fwd l) priors in
    snd (logprob_array post (run post (rv_residuals fwd l) (v0, c0) cs) vals) = snd (logprob_array post (v0, c0) vals).
Proof.
  intros L HN EV EB v0 HC HP. pose proof (vector_init_in_step _ _ _ _ _ L EV) as HI.
  destruct (build_likes_ok _ _ _ _ _ _ _ _ _ HI EB) as ((A & _) & _ & C & D & E).
  intros fwd ms.
  assert (fwd_blind ls v0 fwd) as FB.
  { apply rv_forward_blind; rewrite ?E, ?D; auto.
    - intros i Hi. rewrite (io_dvdt _ _ _ A) in Hi. inversion Hi. lia.
    - intros i Hi. rewrite (io_curv _ _ _ A) in Hi. inversion Hi. lia.
    - intros l Hl. apply (like_gidx _ _ _ _ A). auto. }
  assert (forall l, In l ls -> separate ls v0 l) as SP by (apply (likes_separate (ps_num ps) (v_indices vec1) (length (v_vector vec1))); auto).
  assert (forall p, In p priors -> prior_blind (ps_basis ps1) (v_indices vec1) (marg_rows ls v0) p) as PB.
  { intros p Hp. apply (admissible_blind _ _ (length (v_vector vec1))); rewrite D, HN; auto. }
  split.
  - apply (post_history _ _ _ _ (marg_rows ls v0)); auto.
    + apply comp_logprob_frame; auto. apply incl_refl.
    + apply comp_logprob_blind; auto. apply incl_refl.
    + apply comp_residuals_frame; auto. apply incl_refl.
  - intros l Hl post. apply (post_history _ _ _ _ (marg_rows ls v0)); auto.
    + now apply logprob_frame.
    + apply logprob_blind; auto.
    + now apply residuals_frame.
Qed.
