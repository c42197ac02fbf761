(** C18: evaluation is independent of earlier evaluations. *)
From Coq Require Import Reals String Arith ZArith Bool Lia Lra List.
From Verif Require Import Py PyFloat PyFacts PyFloatFacts Params ParamsProofs ParamsSpec VectorProofs Kepler Basis RVModel Likelihood LikeSpec LikeProofs.
Import ListNotations.
Open Scope R_scope.

Notation same_shape := (agree (fun _ => True)).

(** an operation that changes only the values of rows in [G] ... *)
Definition frame_ok {A} (G : nat -> Prop) (v0 : list row) (f : list row -> list row * res A) : Prop :=
  forall v, same_shape v0 v -> agree G v (fst (f v)).
(** ... and does not look at them *)
Definition blind_to {A} (G : nat -> Prop) (v0 : list row) (f : list row -> list row * res A) : Prop :=
  forall v w, same_shape v0 v -> agree G v w -> snd (f v) = snd (f w).

(** calls on a likelihood (or posterior) object: its logprob and residuals *)
Inductive call := CallLogprobArray (vals : list (option R)) | CallLogprob | CallResiduals | CallGetVary.

Section Object.
  Variables (lp : list row -> list row * res ext) (rs : list row -> list row * res (list R)).

  Definition state := (list row * option (list nat))%type.

  (** state after a call, whether it returned or raised *)
  Definition after (st : state) (c : call) : state :=
    match c with
    | CallLogprobArray vals => fst (logprob_array lp st vals)
    | CallLogprob => (fst (lp (fst st)), snd st)
    | CallResiduals => (fst (rs (fst st)), snd st)
    | CallGetVary => (fst st, fst (get_vary_params (snd st) (fst st)))
    end.
  Definition run (st : state) (cs : list call) : state := fold_left after cs st.
End Object.

Lemma same_shape_of P v w : agree P v w -> same_shape v w.
Proof. apply agree_weaken. auto. Qed.

Lemma assign2 is : forall (P G : nat -> Prop) v w vals v' r w' r',
  (forall i, P i -> In i is \/ G i) -> agree P v w ->
  assign_loop v is vals = (v', r) -> assign_loop w is vals = (w', r') ->
  r = r' /\ (is_ok r -> agree G v' w').
Proof.
  induction is as [|i is IH]; intros P G v w vals v' r w' r' HP A E E'; cbn [assign_loop] in E, E'.
  - inversion E; inversion E'; subst. split; auto. intros _. eapply agree_weaken; [|exact A].
    intros k Hk. destruct (HP k Hk) as [[]|]; auto.
  - destruct vals as [|x vals].
    { inversion E; inversion E'; subst. split; auto. intros [? ?]; discriminate. }
    assert (length v = length w) as L by apply A. rewrite <- L in E'.
    destruct (Nat.ltb i (length v)).
    2:{ inversion E; inversion E'; subst. split; auto. intros [? ?]; discriminate. }
    destruct (assign_loop (setval v i x) is vals) as [v1 r1] eqn:F.
    destruct (assign_loop (setval w i x) is vals) as [w1 r1'] eqn:F'.
    inversion E; inversion E'; subst.
    assert (forall k, P k /\ k <> i -> In k is \/ G k) as HP' by (intros k [Hk Hn]; destruct (HP k Hk) as [[->|]|]; [contradiction|auto|auto]).
    assert (agree (fun k => P k /\ k <> i) (setval v i x) (setval w i x)) as A'.
    { apply (agree_setval2 P _ v w i x A). auto. }
    destruct (IH _ G _ _ _ _ _ _ _ HP' A' F F') as [-> Q].
    split; auto. intros [n Hn]. apply Q. destruct r1' as [m|]; [eexists; eauto|discriminate].
Qed.

Section History.
  Variables (lp : list row -> list row * res ext) (rs : list row -> list row * res (list R)).
  Variables (G : nat -> Prop) (v0 : list row).
  Hypothesis LF : frame_ok G v0 lp.
  Hypothesis LB : blind_to G v0 lp.
  Hypothesis RF : frame_ok G v0 rs.

  Definition inv (st : state) : Prop := agree (fun i => is_free v0 i \/ G i) v0 (fst st) /\ cache_fresh (snd st) v0.

  Lemma fresh_agree c v : same_shape v0 v -> cache_fresh c v0 -> cache_fresh c v.
  Proof.
    intros S [->| ->]; [now left|right]. f_equal. exact (list_vary_agree _ _ _ S).
  Qed.

  Lemma set_inv c v vals v' c' r : agree (fun i => is_free v0 i \/ G i) v0 v -> cache_fresh c v0 ->
    set_vary_params c v vals = (v', c', r) ->
    agree (fun i => is_free v0 i \/ G i) v0 v' /\ c' = Some (list_vary_params v0).
  Proof.
    intros A C E. pose proof (same_shape_of _ _ _ A) as S. unfold set_vary_params in E.
    rewrite (refresh_fresh c v _ (fresh_agree _ _ S C)), <- (list_vary_agree _ _ _ S) in E.
    destruct (assign_loop v (list_vary_params v0) vals) as [u q] eqn:F. inversion E; subst. split; auto.
    eapply agree_trans; [exact A|]. eapply agree_weaken; [|eapply assign_frame; eauto].
    intros i Hi. left. now apply list_vary_in.
  Qed.

  Lemma inv_after st c : inv st -> inv (after lp rs st c).
  Proof.
    destruct st as [v ca]. intros [A C]. cbn [fst snd] in *. pose proof (same_shape_of _ _ _ A) as S.
    destruct c as [vals| | |]; cbn [after fst snd].
    - unfold logprob_array. cbn [fst snd]. destruct (set_vary_params ca v vals) as [[v1 c1] r] eqn:E.
      destruct (set_inv _ _ _ _ _ _ A C E) as [A1 ->].
      destruct r as [u|e]; [|split; [exact A1|right; reflexivity]].
      destruct (lp v1) as [v2 x] eqn:E2. split; cbn [fst snd]; [|right; reflexivity].
      eapply agree_trans; [exact A1|]. eapply agree_weaken; [|pose proof (LF v1 (same_shape_of _ _ _ A1)) as Q; rewrite E2 in Q; exact Q].
      auto.
    - split; cbn [fst snd]; auto. eapply agree_trans; [exact A|]. eapply agree_weaken; [|apply LF; auto]. auto.
    - split; cbn [fst snd]; auto. eapply agree_trans; [exact A|]. eapply agree_weaken; [|apply RF; auto]. auto.
    - split; cbn [fst snd]; auto. right. unfold get_vary_params. cbn [fst].
      destruct C as [->| ->]; auto. f_equal. symmetry. exact (list_vary_agree _ _ _ S).
  Qed.

  Lemma inv_run cs : forall st, inv st -> inv (run lp rs st cs).
  Proof. unfold run. induction cs as [|c cs IH]; intros st H; cbn; auto. apply IH. now apply inv_after. Qed.

  Lemma eval_inv st vals c0 : inv st -> cache_fresh c0 v0 ->
    snd (logprob_array lp st vals) = snd (logprob_array lp (v0, c0) vals).
  Proof.
    destruct st as [v ca]. intros [A C] C0. cbn [fst snd] in *. pose proof (same_shape_of _ _ _ A) as S.
    unfold logprob_array. cbn [fst snd].
    destruct (set_vary_params ca v vals) as [[v1 c1] r] eqn:E.
    destruct (set_vary_params c0 v0 vals) as [[w1 c2] r'] eqn:E'.
    pose proof E as EE. pose proof E' as EE'. unfold set_vary_params in E, E'.
    rewrite (refresh_fresh ca v _ (fresh_agree _ _ S C)), <- (list_vary_agree _ _ _ S) in E.
    rewrite (refresh_fresh c0 v0 _ C0) in E'.
    destruct (assign_loop v (list_vary_params v0) vals) as [a ra] eqn:F.
    destruct (assign_loop v0 (list_vary_params v0) vals) as [b rb] eqn:F'.
    destruct (assign2 (list_vary_params v0) (fun i => is_free v0 i \/ G i) G v v0 vals a ra b rb) as [Q1 Q2]; auto.
    { intros i [H|H]; [left; now apply list_vary_in|auto]. } { now apply agree_sym. }
    inversion E; inversion E'; subst.
    destruct rb as [n|e]; cbn [bind]; [|reflexivity]. destruct (Nat.eqb n (length vals)); [|reflexivity].
    destruct (lp v1) as [v2 x] eqn:L1. destruct (lp w1) as [w2 x'] eqn:L2. cbn [snd].
    assert (agree G v1 w1) as AG by (apply Q2; eexists; reflexivity).
    destruct (set_inv _ _ _ _ _ _ A C EE) as [A1 _].
    pose proof (LB v1 w1 (same_shape_of _ _ _ A1) AG) as Q. rewrite L1, L2 in Q. exact Q.
  Qed.

  Theorem history_independent c0 cs vals : cache_fresh c0 v0 ->
    snd (logprob_array lp (run lp rs (v0, c0) cs) vals) = snd (logprob_array lp (v0, c0) vals).
  Proof.
    intro C0. apply eval_inv; auto. apply inv_run. split; cbn; auto. apply agree_refl.
  Qed.
End History.

(** ** RV likelihoods *)

(** rows of the analytically marginalised offsets of some likelihoods *)
Definition marg_rows (ls : list rvlike) (v0 : list row) (i : nat) : Prop :=
  exists l g, In l ls /\ i = l_gidx l /\ nth_error v0 i = Some g /\ marginalised g = true.

(** what must not sit in such a row: a jitter or a decorrelation coefficient *)
Definition separate (ls : list rvlike) (v0 : list row) (l : rvlike) : Prop :=
  ~ marg_rows ls v0 (l_jidx l) /\
  forall k i, In k (l_decorr l) -> dget (l_indices l) k = Some i -> ~ marg_rows ls v0 i.

(** the forward model does not look at marginalised offsets *)
Definition fwd_blind (ls : list rvlike) (v0 : list row) (fwd : forward) : Prop :=
  forall v w t, same_shape v0 v -> agree (marg_rows ls v0) v w -> fwd v t = fwd w t.

Lemma vget_agree P v w i : agree P v w -> ~ P i -> vget v i = vget w i.
Proof. intros A N. unfold vget. now rewrite (agree_get _ _ _ _ A N). Qed.

Lemma marg_flag ls v0 v l g : same_shape v0 v -> In l ls -> nth_error v (l_gidx l) = Some g ->
  marginalised g = true <-> marg_rows ls v0 (l_gidx l).
Proof.
  intros S Hl Hg. apply agree_sym in S. destruct (agree_some _ _ _ _ _ S Hg) as (x & E & _).
  assert (marginalised g = marginalised (mkRow x (r_vary g) (r_scale g) (r_lin g))) as Q by reflexivity.
  split.
  - intro H. exists l, (mkRow x (r_vary g) (r_scale g) (r_lin g)). repeat split; auto; congruence.
  - intros (l' & g' & _ & _ & A & B). congruence.
Qed.

Lemma map_res_ext {A B} (f g : A -> res B) l : (forall x, In x l -> f x = g x) -> map_res f l = map_res g l.
Proof.
  induction l as [|a l IH]; intro H; auto. cbn. rewrite H by (now left). destruct (g a); auto. cbn. rewrite IH; auto.
  intros; apply H; now right.
Qed.

Lemma for_each_ext' {A S} (f g : S -> A -> res S) l : (forall s x, In x l -> f s x = g s x) ->
  forall s, for_each l f s = for_each l g s.
Proof.
  induction l as [|a l IH]; intros H s; auto. cbn. rewrite H by (now left). destruct (g s a); auto. cbn. apply IH.
  intros; apply H; now right.
Qed.

Section RV.
  Variables (ls : list rvlike) (v0 : list row) (fwd : forward).
  Hypothesis FB : fwd_blind ls v0 fwd.

  Lemma decorr_agree l v w r p : separate ls v0 l -> agree (marg_rows ls v0) v w ->
    decorr_step l v r p = decorr_step l w r p.
  Proof.
    intros [_ HS] A. unfold decorr_step. destruct (nth_error _ 1); auto.
    rewrite (map_res_ext (fun par => do i <- dget_res (l_indices l) par; vget v i)
                         (fun par => do i <- dget_res (l_indices l) par; vget w i)); auto.
    intros k Hk. apply filter_In in Hk. destruct Hk as [Hk _]. unfold dget_res.
    destruct (dget (l_indices l) k) as [i|] eqn:E; auto. cbn [bind]. apply (vget_agree _ _ _ _ A). eauto.
  Qed.

  Lemma residuals_frame l : In l ls -> frame_ok (marg_rows ls v0) v0 (rv_residuals fwd l).
  Proof.
    intros Hl v S. unfold rv_residuals. destruct (fwd v (l_x l)); [|apply agree_refl].
    destruct (nth_error v (l_gidx l)) as [g|] eqn:Eg; [|apply agree_refl].
    destruct (_ && _); [|apply agree_refl].
    destruct (marginalised g) eqn:Em; [|apply agree_refl].
    destruct (vget v (l_jidx l)); [|apply agree_refl]. cbn [fst]. apply agree_setval.
    now apply (marg_flag ls v0 v l g).
  Qed.

  (** both the outcome and the new arrays *)
  Lemma residuals_agree l v w : In l ls -> separate ls v0 l -> same_shape v0 v -> agree (marg_rows ls v0) v w ->
    snd (rv_residuals fwd l v) = snd (rv_residuals fwd l w) /\
    agree (marg_rows ls v0) (fst (rv_residuals fwd l v)) (fst (rv_residuals fwd l w)).
  Proof.
    intros Hl HS S A. pose proof (agree_trans _ _ _ _ S (same_shape_of _ _ _ A)) as S'.
    unfold rv_residuals. rewrite (FB v w (l_x l) S A). destruct (fwd w (l_x l)) as [m|e]; [|auto].
    destruct (nth_error v (l_gidx l)) as [g|] eqn:Eg.
    2:{ rewrite (agree_none _ _ _ _ A Eg). auto. }
    destruct (agree_some _ _ _ _ _ A Eg) as (x & Eg' & Hx). rewrite Eg'.
    destruct (_ && _); [|auto].
    change (marginalised (mkRow x (r_vary g) (r_scale g) (r_lin g))) with (marginalised g).
    destruct (marginalised g) eqn:Em.
    - rewrite (vget_agree _ _ _ (l_jidx l) A) by apply HS. destruct (vget w (l_jidx l)) as [j|]; [|auto].
      cbn [fst snd].
      assert (agree (marg_rows ls v0) (setval v (l_gidx l) (ztil_value (ztil_of (l_y l) m (l_yerr l) j)))
                (setval w (l_gidx l) (ztil_value (ztil_of (l_y l) m (l_yerr l) j)))) as A2 by (apply (agree_setval2 _ _ v w _ _ A); auto).
      split; auto. unfold vget at 1 2. rewrite (nth_setval_same _ _ _ _ Eg), (nth_setval_same _ _ _ _ Eg'). cbn [r_val].
      destruct (ztil_value _) as [zz|]; auto. cbn [bind]. apply for_each_ext'. intros rr p _. now apply decorr_agree.
    - cbn [fst snd]. split; auto.
      assert (~ marg_rows ls v0 (l_gidx l)) as NG by (rewrite <- (marg_flag ls v0 v l g S Hl Eg); congruence).
      rewrite (vget_agree _ _ _ _ A NG). destruct (vget w (l_gidx l)) as [zz|]; auto. cbn [bind]. apply for_each_ext'.
      intros rr p _. now apply decorr_agree.
  Qed.

  Lemma logprob_frame l : In l ls -> frame_ok (marg_rows ls v0) v0 (rv_logprob fwd l).
  Proof.
    intros Hl v S. unfold rv_logprob. destruct (vget v (l_jidx l)); [|apply agree_refl].
    pose proof (residuals_frame l Hl v S) as Q. destruct (rv_residuals fwd l v) as [v1 r]. exact Q.
  Qed.

  Lemma logprob_blind l : In l ls -> separate ls v0 l -> blind_to (marg_rows ls v0) v0 (rv_logprob fwd l).
  Proof.
    intros Hl HS v w S A. unfold rv_logprob.
    rewrite (vget_agree _ _ _ (l_jidx l) A) by apply HS. destruct (vget w (l_jidx l)) as [j|]; [|auto].
    destruct (residuals_agree l v w Hl HS S A) as [Q1 Q2].
    destruct (rv_residuals fwd l v) as [v1 r1], (rv_residuals fwd l w) as [w1 r2]. cbn [fst snd] in *. subst r2.
    destruct r1 as [r1|]; auto. cbn [bind]. destruct (loglike_jitter r1 (l_yerr l) j) as [ll|]; auto. cbn [bind].
    destruct (nth_error v1 (l_gidx l)) as [g|] eqn:Eg.
    - destruct (agree_some _ _ _ _ _ Q2 Eg) as (x & -> & _). reflexivity.
    - now rewrite (agree_none _ _ _ _ Q2 Eg).
  Qed.

  Lemma rv_history l c0 cs vals : In l ls -> separate ls v0 l -> cache_fresh c0 v0 ->
    snd (logprob_array (rv_logprob fwd l) (run (rv_logprob fwd l) (rv_residuals fwd l) (v0, c0) cs) vals) =
    snd (logprob_array (rv_logprob fwd l) (v0, c0) vals).
  Proof.
    intros Hl HS C. apply (history_independent _ _ (marg_rows ls v0)); auto.
    - now apply logprob_frame. - now apply logprob_blind. - now apply residuals_frame.
  Qed.

  (** composite *)
  Lemma comp_logprob_frame ms : incl ms ls -> forall acc,
    frame_ok (marg_rows ls v0) v0 (comp_logprob_from acc (map (rv_member fwd) ms)).
  Proof.
    induction ms as [|l ms IH]; intros HI acc v S; [apply agree_refl|]. cbn [map comp_logprob_from rv_member mb_logprob].
    pose proof (logprob_frame l (HI l (or_introl eq_refl)) v S) as Q.
    destruct (rv_logprob fwd l v) as [v1 [x|e]]; cbn [fst] in *; auto.
    eapply agree_trans; [exact Q|]. apply IH; [intros k Hk; apply HI; now right|].
    eapply agree_trans; [exact S|]. exact (same_shape_of _ _ _ Q).
  Qed.

  Lemma comp_logprob_blind ms : incl ms ls -> (forall l, In l ms -> separate ls v0 l) -> forall acc,
    blind_to (marg_rows ls v0) v0 (comp_logprob_from acc (map (rv_member fwd) ms)).
  Proof.
    induction ms as [|l ms IH]; intros HI HS acc v w S A; [reflexivity|]. cbn [map comp_logprob_from rv_member mb_logprob].
    assert (In l ls) as Hl by (apply HI; now left).
    pose proof (logprob_blind l Hl (HS l (or_introl eq_refl)) v w S A) as Q.
    pose proof (logprob_frame l Hl v S) as F.
    pose proof (logprob_frame l Hl w (agree_trans _ _ _ _ S (same_shape_of _ _ _ A))) as F'.
    destruct (rv_logprob fwd l v) as [v1 r], (rv_logprob fwd l w) as [w1 r']. cbn [fst snd] in *. subst r'.
    destruct r as [x|e]; [|reflexivity]. apply IH.
    - intros k Hk; apply HI; now right.
    - intros k Hk; apply HS; now right.
    - eapply agree_trans; [exact S|]. exact (same_shape_of _ _ _ F).
    - eapply agree_trans; [apply agree_sym; exact F|]. eapply agree_trans; [exact A|exact F'].
  Qed.

  Lemma comp_residuals_from_frame ms : incl ms ls -> forall acc,
    frame_ok (marg_rows ls v0) v0 (comp_residuals_from acc (map (rv_member fwd) ms)).
  Proof.
    induction ms as [|l ms IH]; intros HI acc v S; [apply agree_refl|]. cbn [map comp_residuals_from rv_member mb_residuals].
    pose proof (residuals_frame l (HI l (or_introl eq_refl)) v S) as Q.
    destruct (rv_residuals fwd l v) as [v1 [x|e]]; cbn [fst] in *; auto.
    eapply agree_trans; [exact Q|]. apply IH; [intros k Hk; apply HI; now right|].
    eapply agree_trans; [exact S|]. exact (same_shape_of _ _ _ Q).
  Qed.

  Lemma comp_residuals_frame ms : incl ms ls ->
    frame_ok (marg_rows ls v0) v0 (comp_residuals (map (rv_member fwd) ms)).
  Proof.
    destruct ms as [|l ms]; intros HI v S; [apply agree_refl|]. cbn [map comp_residuals rv_member mb_residuals].
    pose proof (residuals_frame l (HI l (or_introl eq_refl)) v S) as Q.
    destruct (rv_residuals fwd l v) as [v1 [x|e]]; cbn [fst] in *; auto.
    eapply agree_trans; [exact Q|]. apply comp_residuals_from_frame; [intros k Hk; apply HI; now right|].
    eapply agree_trans; [exact S|]. exact (same_shape_of _ _ _ Q).
  Qed.

  Lemma comp_history c0 cs vals : (forall l, In l ls -> separate ls v0 l) -> cache_fresh c0 v0 ->
    let ms := map (rv_member fwd) ls in
    snd (logprob_array (comp_logprob ms) (run (comp_logprob ms) (comp_residuals ms) (v0, c0) cs) vals) =
    snd (logprob_array (comp_logprob ms) (v0, c0) vals).
  Proof.
    intros HS C ms. apply (history_independent _ _ (marg_rows ls v0)); auto.
    - apply comp_logprob_frame. apply incl_refl.
    - apply comp_logprob_blind; [apply incl_refl|auto].
    - apply comp_residuals_frame. apply incl_refl.
  Qed.
End RV.

(** ** The RVModel does not look beyond the orbit and trend rows *)
Definition upto (n : nat) (v w : list row) : Prop := forall i, (i < n)%nat -> nth_error v i = nth_error w i.

Lemma upto_upd n v w i x : upto n v w -> upto n (list_upd v i x) (list_upd w i x).
Proof.
  intros H j Hj. destruct (Nat.eq_dec i j) as [->|N].
  - destruct (nth_error w j) as [r|] eqn:E.
    + rewrite !nth_list_upd_same; auto; apply nth_error_Some; [congruence|rewrite H by auto; congruence].
    + assert (nth_error v j = None) as E' by (rewrite H by auto; auto).
      apply nth_error_None in E, E'.
      rewrite (proj2 (nth_error_None _ _)), (proj2 (nth_error_None _ _)); auto; rewrite length_list_upd; auto.
  - rewrite !nth_list_upd_other by auto. auto.
Qed.

Lemma upto_vset n v w i x : upto n v w -> (i < n)%nat -> upto n (vset v i x) (vset w i x).
Proof.
  intros H Hi. unfold vset. rewrite (H i Hi). destruct (nth_error w i); auto. now apply upto_upd.
Qed.

Lemma upto_vassign n l : forall v w, upto n v w -> (forall i x, In (i, x) l -> (i < n)%nat) -> upto n (vassign v l) (vassign w l).
Proof.
  unfold vassign. induction l as [|[i x] l IH]; intros v w H Hl; auto. cbn. apply IH.
  - apply upto_vset; auto. apply (Hl i x). now left.
  - intros j y Hj. apply (Hl j y). now right.
Qed.

Lemma upto_setvary n b l : forall v w, upto n v w -> (forall i, In i l -> (i < n)%nat) -> upto n (setvary b v l) (setvary b w l).
Proof.
  unfold setvary. induction l as [|i l IH]; intros v w H Hl; auto. cbn. apply IH.
  - rewrite (H i (Hl i (or_introl eq_refl))). destruct (nth_error w i); auto. now apply upto_upd.
  - intros j Hj. apply Hl. now right.
Qed.

Lemma upto_vget n v w i : upto n v w -> (i < n)%nat -> vget v i = vget w i.
Proof. intros H Hi. unfold vget. now rewrite H. Qed.

Lemma v_to_synth_of_upto n name v w b : upto n v w -> (5 + b <= n)%nat -> v_to_synth_of name v b = v_to_synth_of name w b.
Proof.
  intros H Hb. unfold v_to_synth_of.
  rewrite (upto_vget n v w b H), (upto_vget n v w (1 + b) H), (upto_vget n v w (2 + b) H), (upto_vget n v w (3 + b) H),
    (upto_vget n v w (4 + b) H) by lia. reflexivity.
Qed.

Lemma v_to_synth_of_range name v b l vs : v_to_synth_of name v b = Ok (l, vs) ->
  (forall i x, In (i, x) l -> (i < 5 + b)%nat) /\ forall i, In i vs -> (i < 5 + b)%nat.
Proof.
  unfold v_to_synth_of. destruct (vget v b); [|discriminate]. cbn [bind].
  destruct (vget v (1 + b)); [|discriminate]. cbn [bind]. destruct (vget v (2 + b)); [|discriminate]. cbn [bind].
  destruct (vget v (3 + b)); [|discriminate]. cbn [bind]. destruct (vget v (4 + b)); [|discriminate]. cbn [bind].
  repeat match goal with |- (if ?c then _ else _) = _ -> _ => destruct c end; intro H; inversion H; subst; clear H;
    (split; [intros i x Hi|intros i Hi]); cbn [In] in Hi;
    repeat match goal with H : _ \/ _ |- _ => destruct H end; try contradiction;
    try match goal with H : (_, _) = (_, _) |- _ => inversion H; subst end; try lia.
Qed.

Lemma v_to_synth_upto self v w noVary kname : upto (5 * b_num self) v w ->
  match v_to_synth self v noVary kname, v_to_synth self w noVary kname with
  | Ok a, Ok b => upto (5 * b_num self) a b
  | Err e, Err e' => e = e'
  | _, _ => False
  end.
Proof.
  intro H. unfold v_to_synth. destruct (String.eqb _ "per tp e w k"); auto.
  set (nm := match kname with Some s => s | None => b_name self end).
  assert (forall ns, (forall n, In n ns -> (n < b_num self)%nat) -> forall a b, upto (5 * b_num self) a b ->
    match for_each ns (fun v2 n => do (l, vs) <- v_to_synth_of nm v (5 * n); Ok (setvary (negb noVary) (vassign v2 l) vs)) a,
          for_each ns (fun v2 n => do (l, vs) <- v_to_synth_of nm w (5 * n); Ok (setvary (negb noVary) (vassign v2 l) vs)) b with
    | Ok a, Ok b => upto (5 * b_num self) a b | Err e, Err e' => e = e' | _, _ => False end) as Q.
  { induction ns as [|n ns IH]; intros Hn a b AB; [exact AB|]. cbn [for_each].
    assert (n < b_num self)%nat as Hlt by (apply Hn; now left).
    rewrite (v_to_synth_of_upto (5 * b_num self) nm v w (5 * n) H) by lia.
    destruct (v_to_synth_of nm w (5 * n)) as [[l vs]|e] eqn:E; cbn [bind]; [|reflexivity].
    destruct (v_to_synth_of_range _ _ _ _ _ E) as [R1 R2].
    apply IH; [intros k Hk; apply Hn; now right|]. apply upto_setvary; [apply upto_vassign; auto|].
    - intros i x Hi. apply R1 in Hi. lia.
    - intros i Hi. apply R2 in Hi. lia. }
  apply Q; auto. intros n Hn. apply in_seq in Hn. lia.
Qed.

Lemma vgetz_upto n v w i : upto n v w -> (0 <= i < Z.of_nat n)%Z -> vgetz v i = vgetz w i.
Proof.
  intros H Hi. unfold vgetz. rewrite (proj2 (Z.ltb_ge i 0)) by lia. rewrite (proj2 (Z.ltb_ge i 0)) by lia.
  apply (upto_vget n); auto. lia.
Qed.

Lemma rvmodel_call_upto use_c fuel ps idx names tb v w t :
  b_num (ps_basis ps) = ps_num ps ->
  (forall i, dget idx "dvdt" = Some i -> (i < 5 * ps_num ps + 2)%nat) ->
  (forall i, dget idx "curv" = Some i -> (i < 5 * ps_num ps + 2)%nat) ->
  upto (5 * ps_num ps + 2) v w ->
  rv_forward use_c fuel ps idx names tb v t = rv_forward use_c fuel ps idx names tb w t.
Proof.
  intros HN HD HC H. unfold rv_forward, rvmodel_call, standard_rv_calc.
  cbn [m_params m_vector m_time_base v_indices v_vector].
  assert (upto (5 * b_num (ps_basis ps)) v w) as H5 by (rewrite HN; intros i Hi; apply H; lia).
  pose proof (v_to_synth_upto (ps_basis ps) v w false None H5) as Q.
  destruct (v_to_synth (ps_basis ps) v false None) as [a|e], (v_to_synth (ps_basis ps) w false None) as [b|e'];
    try contradiction; [|subst; reflexivity].
  cbn [bind].
  rewrite (for_each_ext' (fun vel n => do o <- orbel_at a n; do x <- rv_drive use_c fuel t o; add_np vel x)
                         (fun vel n => do o <- orbel_at b n; do x <- rv_drive use_c fuel t o; add_np vel x)).
  2:{ intros s n Hn. apply in_map_iff in Hn. destruct Hn as (k & <- & Hk). apply in_seq in Hk.
      unfold orbel_at. rewrite HN in Q.
      rewrite (vgetz_upto _ a b (-5 + 5 * Z.of_nat k) Q), (vgetz_upto _ a b (-4 + 5 * Z.of_nat k) Q),
        (vgetz_upto _ a b (-3 + 5 * Z.of_nat k) Q), (vgetz_upto _ a b (-2 + 5 * Z.of_nat k) Q),
        (vgetz_upto _ a b (-1 + 5 * Z.of_nat k) Q) by lia. reflexivity. }
  destruct (for_each _ _ _) as [vel|]; auto. cbn [bind]. unfold dget_res.
  destruct (dget idx "dvdt") as [i1|] eqn:E1; auto. cbn [bind].
  rewrite (upto_vget _ v w i1 H) by auto. destruct (vget w i1); auto. cbn [bind].
  destruct (dget idx "curv") as [i2|] eqn:E2; auto. cbn [bind].
  rewrite (upto_vget _ v w i2 H) by auto. reflexivity.
Qed.

(** RVModel with offsets beyond the trend rows *)
Lemma rv_forward_blind use_c fuel ps idx names tb ls v0 :
  b_num (ps_basis ps) = ps_num ps ->
  (forall i, dget idx "dvdt" = Some i -> (i < 5 * ps_num ps + 2)%nat) ->
  (forall i, dget idx "curv" = Some i -> (i < 5 * ps_num ps + 2)%nat) ->
  (forall l, In l ls -> (5 * ps_num ps + 2 <= l_gidx l)%nat) ->
  fwd_blind ls v0 (rv_forward use_c fuel ps idx names tb).
Proof.
  intros HN HD HC HG v w t S A. apply rvmodel_call_upto; auto. intros i Hi. apply (agree_get _ _ _ _ A).
  intros (l & g & Hl & -> & _). apply HG in Hl. lia.
Qed.
