(** C39: maximum a posteriori fitting. *)
From Coq Require Import Reals String Arith ZArith Bool Lia Lra List.
From Verif Require Import Py PyFloat PyFacts PyFloatFacts Params ParamsProofs ParamsSpec VectorProofs Kepler Basis RVModel Likelihood LikeSpec LikeProofs LikeHist LikeBuild
  LikeDensity Prior PriorSpec PriorProofs Posterior PostProofs PostHist PostRefute Fitting.
Import ListNotations.
Open Scope R_scope.

(** the varied parameters (row order) have the values [x] *)
Definition holds_at (v : list row) (x : list (option R)) : Prop :=
  length x = n_free v /\
  forall j i, nth_error (list_vary_params v) j = Some i -> exists r, nth_error v i = Some r /\ nth_error x j = Some (r_val r).

(** [a <= b] for log-probabilities *)
Definition le_ext (a b : ext) : Prop :=
  match a, b with
  | Fin x, Fin y => x <= y
  | NInf, Fin _ | NInf, NInf => True
  | _, _ => False
  end.

Section Fit.
  Variables (lp : list row -> list row * res ext) (G : nat -> Prop) (v0 : list row).
  Hypothesis LF : frame_ok G v0 lp.
  Hypothesis LB : blind_to G v0 lp.
  (** rows written by the log-probability are fixed (marginalised offsets) *)
  Hypothesis GF : forall i, G i -> ~ is_free v0 i.

  Let P := fun i => is_free v0 i \/ G i.

  Lemma holds_frame v w x : same_shape v0 v -> agree G v w -> holds_at v x -> holds_at w x.
  Proof.
    intros S A [L H]. split.
    - rewrite L. eapply n_free_agree; eauto.
    - intros j i E. rewrite <- (list_vary_agree _ _ _ A) in E. destruct (H j i E) as (r & E1 & E2).
      exists r. split; auto. rewrite <- E1. symmetry. apply (agree_get _ _ _ _ A). intro Hg. apply (GF i Hg).
      rewrite <- list_vary_in. rewrite (list_vary_agree _ _ _ S). eapply nth_error_In; eauto.
  Qed.

  Lemma eval_step v c x st' y : agree P v0 v -> cache_fresh c v0 -> logprob_array lp (v, c) x = (st', Ok y) ->
    agree P v0 (fst st') /\ snd st' = Some (list_vary_params v0) /\ holds_at (fst st') x /\ snd (lp (fst st')) = Ok y.
  Proof.
    intros A C E. pose proof (same_shape_of _ _ _ A) as S. unfold logprob_array in E. cbn [fst snd] in E.
    destruct (set_vary_params c v x) as [[v1 c1] r] eqn:E1. destruct r as [u|e]; [|discriminate].
    destruct (lp v1) as [v2 y2] eqn:E2. inversion E; subst. cbn [fst snd].
    destruct (set_inv G v0 _ _ _ _ _ _ A C E1) as [A1 ->].
    pose proof (same_shape_of _ _ _ A1) as S1.
    pose proof (LF v1 S1) as F. rewrite E2 in F. cbn [fst] in F.
    assert (cache_fresh c v) as Cv by (exact (fresh_agree v0 _ _ S C)).
    split; [eapply agree_trans; [exact A1|]; eapply agree_weaken; [|exact F]; unfold P; auto|]. split; auto.
    assert (length x = n_free v) as Lx.
    { destruct (Nat.eq_dec (length x) (n_free v)) as [|N]; auto. destruct (set_wrong_length v c x Cv N) as (? & ? & ? & Q & _). rewrite Q in E1. inversion E1. }
    split.
    - apply (holds_frame v1); auto. destruct (set_get v c x Cv Lx) as (v' & c' & Q1 & Q2 & Q3). rewrite Q1 in E1. inversion E1; subst v' c'.
      split; [rewrite Lx; eapply n_free_agree; eauto|]. intros j i Hj.
      assert (cache_fresh (Some (list_vary_params v0)) v1) as Cw. { right. f_equal. exact (list_vary_agree _ _ _ S1). }
      destruct (get_ok v1 _ Cw) as (vals & c2 & G1 & _ & _ & G4). rewrite G1 in Q2. inversion Q2; subst. auto.
    - pose proof (LB v1 v2 S1 F) as Q. rewrite E2 in Q. cbn [snd] in Q. now rewrite <- Q.
  Qed.

  Lemma minimise_last o : forall v c st' rep, agree P v0 v -> cache_fresh c v0 -> minimise lp o (v, c) = (st', Ok rep) ->
    agree P v0 (fst st') /\ cache_fresh (snd st') v0 /\ reported lp o (v, c) = Some rep /\
    match rev (trace lp o (v, c)) with
    | [] => st' = (v, c)
    | (x, y) :: _ => holds_at (fst st') x /\ snd (lp (fst st')) = Ok y
    end.
  Proof.
    induction o as [x|e|x k IH]; intros v c st' rep A C E; cbn [minimise trace reported] in *.
    - inversion E; subst. cbn. auto.
    - discriminate.
    - destruct (logprob_array lp (v, c) x) as [[v1 c1] r] eqn:E1. destruct r as [y|e]; [|discriminate].
      destruct (eval_step _ _ _ _ _ A C E1) as (A1 & C1 & H1 & L1). cbn [fst snd] in *.
      destruct (IH (ext_neg y) v1 c1 st' rep A1 (or_intror C1) E) as (A2 & C2 & R2 & T2). split; auto. split; auto. split; auto.
      cbn [rev]. destruct (rev (trace lp (k (ext_neg y)) (v1, c1))) as [|[x2 y2] t] eqn:ET; cbn [app].
      + subst st'. cbn [fst]. auto.
      + exact T2.
  Qed.

  Lemma set_same v c x st' y : agree P v0 v -> agree G v0 v -> cache_fresh c v0 -> holds_at v0 x -> logprob_array lp (v, c) x = (st', Ok y) ->
    snd (lp v0) = Ok y.
  Proof.
    intros A AG C [Lx Hx] E. destruct (eval_step v c x st' y A C E) as (A1 & _ & [_ H1] & L1).
    rewrite <- L1. apply (LB v0 (fst st')).
    - apply agree_refl.
    - split; [apply A1|]. intros i r s Hr Hs. destruct (proj2 A1 i r s Hr Hs) as (B1 & B2 & B3 & B4). repeat split; auto.
      destruct B4 as [[B|B]|B]; auto. right. apply list_vary_in in B. destruct (In_nth_error _ _ B) as [j Hj].
      destruct (Hx j i Hj) as (r1 & R1 & R2). rewrite (list_vary_agree _ _ _ A1) in Hj. destruct (H1 j i Hj) as (s1 & S1 & S2). congruence.
  Qed.

  Lemma show_inv verbose s s1 : agree P v0 (f_rows s) -> show lp verbose s = (s1, Ok tt) ->
    agree G (f_rows s) (f_rows s1) /\ agree P v0 (f_rows s1) /\ f_cp s1 = f_cp s /\ f_cl s1 = f_cl s /\ f_heap s1 = f_heap s /\
    (verbose = false -> s1 = s).
  Proof.
    intros A E. unfold show in E. destruct verbose.
    - pose proof (LF (f_rows s) (same_shape_of _ _ _ A)) as F. destruct (lp (f_rows s)) as [v r]. inversion E; subst. cbn [fst] in F.
      cbn [f_rows f_cp f_cl f_heap]. split; auto. split; [|repeat split; discriminate].
      eapply agree_trans; [exact A|]. eapply agree_weaken; [|exact F]. unfold P; auto.
    - inversion E; subst. split; [apply agree_refl|]. auto.
  Qed.

  Lemma get_holds v c c' x : cache_fresh c v -> get_vary_params c v = (c', Ok x) -> holds_at v x.
  Proof. intros C E. destruct (get_ok v c C) as (vals & c2 & E2 & _ & L & H). rewrite E in E2. inversion E2; subst. split; auto. Qed.

  (** parameters stored in the dictionary [d] *)
  Variables (d idx : dict nat) (h0 : heap).
  Hypothesis HO : objects_ok h0 d.
  Hypothesis HR : forall k i, In k (dkeys d) -> dget idx k = Some i -> (i < length v0)%nat.

  Theorem maxlike_main cp cl optimiser verbose s' : cache_fresh cp v0 -> cache_fresh cl v0 ->
    maxlike_fitting lp d idx optimiser verbose (mkFit v0 cp cl h0) = (s', Ok tt) ->
    exists x0 v1, holds_at v0 x0 /\ agree G v0 v1 /\ (verbose = false -> v1 = v0) /\
      let o := optimiser x0 in let tr := trace lp o (v1, cl) in
      (exists rep, reported lp o (v1, cl) = Some rep) /\
      (forall i, ~ is_free v0 i -> ~ G i -> nth_error (f_rows s') i = nth_error v0 i) /\
      (forall k p i, get_param h0 d k = Some p -> dget idx k = Some i -> ~ G i ->
         exists r, nth_error (f_rows s') i = Some r /\ get_param (f_heap s') d k = Some (mkParam (r_val r) (p_vary p) (p_scale p) (p_lin p))) /\
      (match rev tr with
       | [] => holds_at (f_rows s') x0
       | (x, y) :: _ => holds_at (f_rows s') x /\ snd (lp (f_rows s')) = Ok y
       end) /\
      (forall y0 t, tr = (x0, y0) :: t -> snd (lp v0) = Ok y0).
  Proof.
    intros Cp Cl E. unfold maxlike_fitting in E.
    destruct (show lp verbose (mkFit v0 cp cl h0)) as [s1 r1] eqn:E1. destruct r1 as [[]|]; [|discriminate].
    destruct (show_inv verbose (mkFit v0 cp cl h0) s1 (agree_refl _ _) E1) as (A1 & B1 & D1 & D2 & D3 & D4). cbn [f_rows f_cp f_cl f_heap] in *.
    destruct (get_vary_params (f_cp s1) (f_rows s1)) as [cp' x0] eqn:E2. destruct x0 as [x0|]; [|discriminate].
    destruct (minimise lp (optimiser x0) (f_rows s1, f_cl s1)) as [[v cl'] r2] eqn:E3. destruct r2 as [rep|]; [|discriminate].
    destruct (vector_to_dict d idx v (f_heap s1)) as [h|] eqn:E4; [|discriminate].
    rewrite D2 in E3. rewrite D1 in E2.
    assert (holds_at v0 x0) as H0.
    { apply (holds_frame (f_rows s1)); auto; [exact (same_shape_of _ _ _ A1)|now apply agree_sym|].
      eapply get_holds; [|exact E2]. exact (fresh_agree v0 _ _ (same_shape_of _ _ _ A1) Cp). }
    destruct (minimise_last (optimiser x0) _ _ _ _ B1 Cl E3) as (B2 & C2 & R2 & T2). cbn [fst snd] in *.
    destruct (show_inv verbose (mkFit v cp' cl' h) s' B2 E) as (A3 & B3 & F1 & F2 & F3 & _). cbn [f_rows f_heap] in *.
    exists x0, (f_rows s1). split; auto. split; auto. split; [intro V; now rewrite (D4 V)|]. cbv zeta.
    split; [eauto|]. split; [|split; [|split]].
    - intros i N1 N2. symmetry. apply (agree_get _ _ _ _ B3). unfold P. tauto.
    - intros k p i Hk Hi Ng. destruct HO as [OW OA ON]. rewrite D3 in E4.
      assert (length v = length v0) as Lv by (symmetry; apply B2).
      destruct (vd_fill d idx v (dkeys d) h0) as (h' & X1 & X2 & X3 & X4); auto.
      { intros q Hq. apply dget_some_key in Hq. destruct Hq as [l El]. exists l. split; eauto. }
      { intros q j Hq Hj. rewrite Lv. eauto. }
      unfold vector_to_dict in E4. rewrite X1 in E4. inversion E4; subst h'.
      assert (In k (dkeys d)) as Hin. { unfold get_param in Hk. destruct (dget d k) eqn:Ed; [|discriminate]. eapply dget_key; eauto. }
      pose proof (X3 k p Hin Hk) as Q. rewrite Hi in Q.
      destruct (nth_error v i) as [r|] eqn:Er; [|apply nth_error_None in Er; pose proof (HR k i Hin Hi); lia].
      exists r. split; [|now rewrite F3]. rewrite <- (agree_get _ _ _ _ A3 Ng). exact Er.
    - destruct (rev _) as [|[x y] t].
      + inversion T2; subst v cl'. apply (holds_frame (f_rows s1)); [exact (same_shape_of _ _ _ A1)|exact A3|].
        apply (holds_frame v0); auto. apply agree_refl.
      + destruct T2 as [T2 T3]. split; [apply (holds_frame v); auto; exact (same_shape_of _ _ _ B2)|].
        rewrite <- T3. symmetry. apply LB; auto. exact (same_shape_of _ _ _ B2).
    - intros y0 t Ht. destruct (optimiser x0) as [|e|x k] eqn:Eo; cbn [trace] in Ht; try discriminate.
      destruct (logprob_array lp (f_rows s1, cl) x) as [st1 r] eqn:El. destruct r as [y|]; [|discriminate]. inversion Ht; subst x y.
      eapply set_same; [exact B1|exact A1|exact Cl|exact H0|exact El].
  Qed.

  (** an optimiser that evaluates the start first and the solution it reports last *)
  Corollary maxlike_optimum cp cl optimiser verbose s' : cache_fresh cp v0 -> cache_fresh cl v0 ->
    maxlike_fitting lp d idx optimiser verbose (mkFit v0 cp cl h0) = (s', Ok tt) ->
    (forall x0 v, holds_at v0 x0 -> agree G v0 v -> exists y0 x y t u, 
       trace lp (optimiser x0) (v, cl) = (x0, y0) :: t /\ rev (trace lp (optimiser x0) (v, cl)) = (x, y) :: u /\
       (forall rep, reported lp (optimiser x0) (v, cl) = Some rep -> rep = x) /\ le_ext y0 y) ->
    exists x0 v rep y0 y, holds_at v0 x0 /\ agree G v0 v /\ reported lp (optimiser x0) (v, cl) = Some rep /\ holds_at (f_rows s') rep /\
      snd (lp v0) = Ok y0 /\ snd (lp (f_rows s')) = Ok y /\ le_ext y0 y.
  Proof.
    intros Cp Cl E Hop. destruct (maxlike_main cp cl optimiser verbose s' Cp Cl E) as (x0 & v1 & H0 & A1 & _ & H2). cbv zeta in H2.
    destruct H2 as ([rep R] & _ & _ & H4 & H5). destruct (Hop x0 v1 H0 A1) as (y0 & x & y & t & u & T1 & T2 & T3 & T4).
    rewrite T2 in H4. destruct H4 as [H4 H6]. rewrite (T3 rep R) in R. exists x0, v1, x, y0, y. split; [exact H0|]. split; [exact A1|]. split; [exact R|]. split; [exact H4|]. split; [exact (H5 y0 t T1)|]. auto.
  Qed.
End Fit.

(** ** posteriors built from the constructors *)
Theorem maxlike_built h ps b names vec ds h1 ps1 vec1 ls use_c fuel tb priors cp cl optimiser verbose s' :
  layout (ps_num ps) b names (dkeys (ps_items ps)) -> b_num (ps_basis ps) = ps_num ps ->
  vector_init h ps = Ok vec -> build_likes h ps vec ds = Ok (h1, ps1, vec1, ls) ->
  objects_ok h1 (ps_items ps1) ->
  let v0 := v_vector vec1 in
  (forall p, In p priors -> prior_admissible (ps_num ps) ls v0 (v_indices vec1) p) ->
  let fwd := rv_forward use_c fuel ps1 (v_indices vec1) (v_names vec1) tb in
  let post := post_logprob (ps_basis ps1) (v_indices vec1) (comp_logprob (map (rv_member fwd) ls)) priors in
  cache_fresh cp v0 -> cache_fresh cl v0 ->
  maxlike_fitting post (ps_items ps1) (v_indices vec1) optimiser verbose (mkFit v0 cp cl h1) = (s', Ok tt) ->
  (forall i, ~ is_free v0 i -> ~ marg_rows ls v0 i -> nth_error (f_rows s') i = nth_error v0 i) /\
  (forall k p i, get_param h1 (ps_items ps1) k = Some p -> dget (v_indices vec1) k = Some i -> ~ marg_rows ls v0 i ->
     exists r, nth_error (f_rows s') i = Some r /\
       get_param (f_heap s') (ps_items ps1) k = Some (mkParam (r_val r) (p_vary p) (p_scale p) (p_lin p))) /\
  exists x0 v1, holds_at v0 x0 /\ agree (marg_rows ls v0) v0 v1 /\
    match rev (trace post (optimiser x0) (v1, cl)) with
    | [] => holds_at (f_rows s') x0
    | (x, y) :: _ => holds_at (f_rows s') x /\ snd (post (f_rows s')) = Ok y
    end.
Proof.
  intros L HN EV EB HO v0 HP fwd post Cp Cl E. pose proof (vector_init_in_step _ _ _ _ _ L EV) as HI.
  destruct (build_likes_ok _ _ _ _ _ _ _ _ _ HI EB) as ((A & _) & _ & C & D & E').
  assert (forall k i, In k (dkeys (ps_items ps1)) -> dget (v_indices vec1) k = Some i -> (i < length v0)%nat) as HR by (intros k i _; apply (io_lt _ _ _ A)).
  assert (fwd_blind ls v0 fwd) as FB.
  { apply rv_forward_blind; rewrite ?E', ?D; auto.
    - intros i Hi. rewrite (io_dvdt _ _ _ A) in Hi. inversion Hi. lia.
    - intros i Hi. rewrite (io_curv _ _ _ A) in Hi. inversion Hi. lia.
    - intros l Hl. apply (like_gidx _ _ _ _ A). auto. }
  assert (forall l, In l ls -> separate ls v0 l) as SP by (apply (likes_separate (ps_num ps) (v_indices vec1) (length (v_vector vec1))); auto).
  assert (forall p, In p priors -> prior_blind (ps_basis ps1) (v_indices vec1) (marg_rows ls v0) p) as PB.
  { intros p Hp. apply (admissible_blind _ _ (length (v_vector vec1))); rewrite D, HN; auto. }
  assert (frame_ok (marg_rows ls v0) v0 post) as PF. { apply post_frame; auto. apply comp_logprob_frame; auto. apply incl_refl. }
  assert (blind_to (marg_rows ls v0) v0 post) as PBl. { apply post_blind; auto. apply comp_logprob_blind; auto. apply incl_refl. }
  assert (forall i, marg_rows ls v0 i -> ~ is_free v0 i) as GF.
  { intros i (l & g & _ & _ & Hg & Hm) (r & Hr & Hv). rewrite Hg in Hr. inversion Hr; subst r. unfold marginalised in Hm. rewrite Hv, andb_false_r in Hm. discriminate. }
  destruct (maxlike_main post _ v0 PF PBl GF (ps_items ps1) (v_indices vec1) h1 HO HR cp cl optimiser verbose s' Cp Cl E) as (x0 & v1 & H0 & A1 & _ & H2).
  destruct H2 as (_ & Q1 & Q2 & Q3 & _). split; auto. split; auto. exists x0, v1. auto.
Qed.

(** ** an optimiser whose last evaluation is not its solution *)
Definition fit_post := post_logprob (basis_init "per tp e w k" 0) (l_indices ex_like) (rv_logprob ex_fwd ex_like) [PHard "jit_a" (Fin 0) (Fin 10)].
Definition fit_opt (x0 : list (option R)) : opt := Evaluate x0 (fun _ => Evaluate [Some 20] (fun _ => Report x0)).
Lemma hard_in x : 0 < x < 10 -> exists z, prior_call (basis_init "per tp e w k" 0) (l_indices ex_like) [mkRow (Some 1) false None true; mkRow (Some x) true None false] (PHard "jit_a" (Fin 0) (Fin 10)) = Ok (Fin z).
Proof.
  intro H. unfold prior_call, prior_eval, rowval. cbn -[rleb rltb]. unfold ext_leb, rleb. destruct (Rle_dec x 0), (Rle_dec 10 x); try lra.
  cbn -[rltb]. rewrite (proj2 (rltb_true 0 (10 + - 0))) by lra. eexists. reflexivity.
Qed.
Lemma hard_out x : 10 < x -> prior_call (basis_init "per tp e w k" 0) (l_indices ex_like) [mkRow (Some 1) false None true; mkRow (Some x) true None false] (PHard "jit_a" (Fin 0) (Fin 10)) = Ok NInf.
Proof. intro H. unfold prior_call, prior_eval, rowval. cbn -[rleb]. unfold ext_leb, rleb. destruct (Rle_dec x 0), (Rle_dec 10 x); try lra. reflexivity. Qed.

Lemma maxlike_refuted : exists h d rep y0,
  let s0 := mkFit (ex_rows 1) None None h in
  holds_at (ex_rows 1) rep /\ reported fit_post (fit_opt rep) (ex_rows 1, None) = Some rep /\ snd (fit_post (ex_rows 1)) = Ok (Fin y0) /\
  exists s', maxlike_fitting fit_post d (l_indices ex_like) fit_opt false s0 = (s', Ok tt) /\
    holds_at (f_rows s') [Some 20] /\ snd (fit_post (f_rows s')) = Ok NInf /\
    match get_param (f_heap s') d "jit_a" with Some p => p_value p = Some 20 | None => False end.
Proof.
  destruct (ex_lik 1) as [X HX]. destruct (hard_in 1) as [z Hz]; [lra|].
  exists [mkParam (Some 1) (VBool true) None false], [("jit_a"%string, 0%nat)], [Some 1], (z + X).
  assert (fit_post (ex_rows 1) = (ex_rows 1, Ok (Fin (z + X)))) as Hin.
  { unfold fit_post, post_logprob, sum_priors. cbn [for_each]. unfold ex_rows at 1. rewrite Hz. cbn [bind ext_add isfinite]. rewrite HX. cbn. f_equal. f_equal. f_equal. ring. }
  set (v20 := [mkRow (Some 1) false None true; mkRow (Some 20) true None false]).
  assert (fit_post v20 = (v20, Ok NInf)) as Hout.
  { unfold fit_post, post_logprob, sum_priors. cbn [for_each]. unfold v20 at 1. rewrite hard_out by lra. reflexivity. }
  assert (logprob_array fit_post (ex_rows 1, None) [Some 1] = ((ex_rows 1, Some [1%nat]), Ok (Fin (z + X)))) as L1.
  { unfold logprob_array. cbn [fst snd]. rewrite ex_set by (now left). now rewrite Hin. }
  assert (logprob_array fit_post (ex_rows 1, Some [1%nat]) [Some 20] = ((v20, Some [1%nat]), Ok NInf)) as L2.
  { assert (set_vary_params (Some [1%nat]) (ex_rows 1) [Some 20] = (v20, Some [1%nat], Ok tt)) as Q by reflexivity. unfold logprob_array. cbn [fst snd]. rewrite Q. now rewrite Hout. }
  cbv zeta. split; [|split; [|split]].
  - split; [reflexivity|]. intros [|[|j]] i H; cbn in H; try discriminate. inversion H; subst. eexists. split; reflexivity.
  - unfold fit_opt. cbn [reported]. rewrite L1, L2. reflexivity.
  - now rewrite Hin.
  - unfold maxlike_fitting. cbn [show f_rows f_cp f_cl f_heap]. change (get_vary_params None (ex_rows 1)) with (Some [1%nat], Ok [Some 1] : res (list (option R))).
    unfold fit_opt. cbn [minimise]. rewrite L1, L2. cbn -[v20 fit_post]. eexists. split; [reflexivity|]. cbn [f_rows f_heap]. split; [|split].
    + split; [reflexivity|]. intros [|[|j]] i H; cbn in H; try discriminate. inversion H; subst. eexists. split; reflexivity.
    + now rewrite Hout.
    + reflexivity.
Qed.
