From Coq Require Import Reals String Ascii Arith ZArith Bool Lia Lra List.
From Verif Require Import Py PyFloat PyFacts PyFloatFacts Params ParamsProofs ParamsSpec VectorProofs Kepler Basis RVModel Likelihood LikeSpec LikeProofs LikeHist LikeDensity LikeBuild Prior PriorSpec PriorProofs Posterior PostProofs PostHist Parallel ParallelSpec ParallelProofs.
Import ListNotations.
Open Scope R_scope.

(** ** posteriors over RV likelihoods *)
Lemma steady_array lp G v0 c0 : frame_ok G v0 lp -> blind_to G v0 lp -> cache_fresh c0 v0 ->
  steady (logprob_array lp) (fun x => snd (logprob_array lp (v0, c0) x)) (inv G v0).
Proof.
  intros F B C ps x H. split.
  - assert (frame_ok G v0 (fun v => (v, @Err (list R) IndexError))) as RF by (intros v _; apply agree_refl).
    exact (inv_after lp _ G v0 F RF ps (CallLogprobArray x) H).
  - apply (eval_inv lp G v0); auto.
Qed.

Theorem same_posterior h ps b names vec ds h1 ps1 vec1 ls use_c fuel tb v0 c0 priors :
  layout (ps_num ps) b names (dkeys (ps_items ps)) -> b_num (ps_basis ps) = ps_num ps ->
  vector_init h ps = Ok vec -> build_likes h ps vec ds = Ok (h1, ps1, vec1, ls) ->
  cache_fresh c0 v0 ->
  (forall p, In p priors -> prior_admissible (ps_num ps) ls v0 (v_indices vec1) p) ->
  let fwd := rv_forward use_c fuel ps1 (v_indices vec1) (v_names vec1) tb in
  let post := post_logprob (ps_basis ps1) (v_indices vec1) (comp_logprob (map (rv_member fwd) ls)) priors in
  forall Smp Pos G where_from one many between raised n g (ss : list Smp),
  agrees (snd (sampling Smp Pos G _ (logprob_array post) where_from one many between raised true n g ss (v0, c0)))
         (snd (sampling Smp Pos G _ (logprob_array post) where_from one many between raised false n g ss (v0, c0))).
Proof.
  intros L HN EV EB HC HP fwd post Smp Pos G where_from one many between raised n g ss.
  pose proof (vector_init_in_step _ _ _ _ _ L EV) as HI.
  destruct (build_likes_ok _ _ _ _ _ _ _ _ _ HI EB) as ((A & _) & _ & C & D & E).
  assert (fwd_blind ls v0 fwd) as FB.
  { apply rv_forward_blind; rewrite ?E, ?D; auto.
    - intros i Hi. rewrite (io_dvdt _ _ _ A) in Hi. inversion Hi. lia.
    - intros i Hi. rewrite (io_curv _ _ _ A) in Hi. inversion Hi. lia.
    - intros l Hl. apply (like_gidx _ _ _ _ A). auto. }
  assert (forall l, In l ls -> separate ls v0 l) as SP by (apply (likes_separate (ps_num ps) (v_indices vec1) (length (v_vector vec1))); auto).
  assert (forall p, In p priors -> prior_blind (ps_basis ps1) (v_indices vec1) (marg_rows ls v0) p) as PB.
  { intros p Hp. apply (admissible_blind _ _ (length (v_vector vec1))); rewrite D, HN; auto. }
  assert (frame_ok (marg_rows ls v0) v0 (comp_logprob (map (rv_member fwd) ls))) as LF by (apply comp_logprob_frame; auto; apply incl_refl).
  assert (blind_to (marg_rows ls v0) v0 (comp_logprob (map (rv_member fwd) ls))) as LB by (apply comp_logprob_blind; auto; apply incl_refl).
  assert (inv (marg_rows ls v0) v0 (v0, c0)) as H0 by (split; [apply agree_refl|exact HC]).
  apply (same_chains (logprob_array post) where_from one many between raised raised (fun x => snd (logprob_array post (v0, c0) x)) (inv (marg_rows ls v0) v0)); auto.
  apply steady_array; auto; [apply post_frame; auto|apply post_blind; auto].
Qed.

(** ** the posterior that was given *)
Section Left.
  Variables (Smp Pos G PS : Type).
  Variable eval : PS -> list (option R) -> PS * res ext.
  Variable where_from : nat -> G -> Smp -> res (G * Pos).
  Variables (one many : Pos -> Smp -> prog Smp).
  Variable between : G -> list Smp -> res (G * list Smp * bool).
  Variable raised : list exn -> exn.
  Local Notation first_steps := (first_steps Smp Pos G PS eval where_from one).
  Local Notation in_pool := (in_pool Smp Pos PS eval many raised).
  Local Notation rounds := (rounds Smp Pos G PS eval where_from one many between raised).

  Definition away (ss : list (obj Smp)) : Prop := Forall (fun s => (1 <= o_post s)%nat) ss.

  Lemma put_away h o (ps : PS) : (1 <= o)%nat -> nth_error (put PS h o ps) 0 = nth_error h 0 \/ h = [].
  Proof. intro L. destruct o as [|o]; [lia|]. destruct h as [|x h]; [now right|left]. reflexivity. Qed.

  Lemma exec_on_away {A} (p : prog A) o h : (1 <= o)%nat -> h <> [] ->
    nth_error (fst (exec_on PS eval p o h)) 0 = nth_error h 0 /\ fst (exec_on PS eval p o h) <> [].
  Proof.
    intros L N. unfold exec_on. destruct (nth_error h o) as [ps|]; auto. destruct (exec PS eval p ps) as [ps1 r]. cbn [fst].
    destruct o as [|o]; [lia|]. destruct h as [|x h]; [contradiction|]. split; [reflexivity|discriminate].
  Qed.

  Lemma first_away ss : forall i g h, away ss -> h <> [] ->
    nth_error (fst (first_steps i g ss h)) 0 = nth_error h 0 /\ fst (first_steps i g ss h) <> [].
  Proof.
    induction ss as [|s ss IH]; intros i g h A N; cbn [Parallel.first_steps]; auto.
    inversion A as [|? ? A1 A2]; subst. destruct (where_from i g (o_smp s)) as [[g1 p]|e]; auto.
    destruct (exec_on_away (one p (o_smp s)) (o_post s) h A1 N) as [Q1 Q2].
    destruct (exec_on PS eval (one p (o_smp s)) (o_post s) h) as [h1 r]. cbn [fst] in *. destruct r as [s1|e]; auto.
    destruct (IH (S i) g1 h1 A2 Q2) as [P1 P2]. destruct (first_steps (S i) g1 ss h1) as [h2 r]. cbn [fst] in *.
    split; auto. congruence.
  Qed.

  Lemma received_away l : forall h, h <> [] -> nth_error (fst (received Smp PS l h)) 0 = nth_error h 0 /\
    fst (received Smp PS l h) <> [] /\ away (snd (received Smp PS l h)).
  Proof.
    induction l as [|[s ps] l IH]; intros h N; cbn [received].
    - repeat split; auto. constructor.
    - destruct (IH (h ++ [ps])%list) as (A & B & C); [destruct h; discriminate|].
      destruct (received Smp PS l (h ++ [ps])%list) as [h1 r]. cbn [fst snd] in *. split.
      + rewrite A. destruct h; [contradiction|reflexivity].
      + split; auto. constructor; auto. cbn. destruct h; [contradiction|cbn; lia].
  Qed.

  Lemma pool_away inp h : h <> [] -> nth_error (fst (in_pool inp h)) 0 = nth_error h 0 /\
    fst (in_pool inp h) <> [] /\ match snd (in_pool inp h) with Ok ss => away ss | Err _ => True end.
  Proof.
    intro N. unfold Parallel.in_pool. destruct (errors _).
    - destruct (received_away (values (map (worker Smp Pos PS eval many h) inp)) h N) as (A & B & C). destruct (received _ _ _ _). cbn [fst snd] in *. split; [exact A|split; [exact B|exact C]].
    - split; [reflexivity|split; [exact N|exact Logic.I]].
  Qed.

  Lemma zip_away sm : forall ss, away ss -> away (map (fun x : Smp * obj Smp => mkObj (fst x) (o_post (snd x))) (combine sm ss)).
  Proof.
    induction sm as [|s sm IH]; intros [|o ss] A; cbn; try constructor; inversion A; subst; auto. apply IH. auto.
  Qed.

  Lemma rounds_away n : forall g ss h, away ss -> h <> [] -> nth_error (fst (rounds false n g ss h)) 0 = nth_error h 0.
  Proof.
    induction n as [|n IH]; intros g ss h A N; cbn [Parallel.rounds]; auto.
    destruct (first_away ss 0 g h A N) as [Q1 Q2]. destruct (first_steps 0 g ss h) as [h1 r]. cbn [fst] in *.
    destruct r as [[g1 inp]|e]; auto.
    destruct (pool_away inp h1 Q2) as (P1 & P2 & P3). destruct (in_pool inp h1) as [h2 r]. cbn [fst snd] in *.
    destruct r as [ss1|e]; [|cbn [fst]; congruence].
    destruct (between g1 (map o_smp ss1)) as [[[g2 sm] stop]|e]; [|cbn [fst]; congruence].
    destruct stop; [cbn [fst]; congruence|]. rewrite IH; [congruence|now apply zip_away|auto].
  Qed.

  (** whatever the samplers do in the pool and in later rounds, the posterior given is left by the first steps of the first round *)
  Theorem left_first n g ss post :
    nth_error (fst (sampling Smp Pos G PS eval where_from one many between raised false (S n) g ss post)) 0 =
    nth_error (fst (first_steps 0 g (map (fun s => mkObj s 0%nat) ss) [post])) 0.
  Proof.
    unfold sampling.
    assert (forall h l, h <> [] -> fst (first_steps 0 g l h) <> []) as NE.
    { intros h l N. revert h N. generalize 0%nat, g. induction l as [|s l IH]; intros i g' h N; cbn [Parallel.first_steps]; auto.
      destruct (where_from i g' (o_smp s)) as [[g1 p]|e]; auto. unfold exec_on.
      destruct (nth_error h (o_post s)) as [ps|]; auto. destruct (exec PS eval (one p (o_smp s)) ps) as [ps1 r].
      assert (put PS h (o_post s) ps1 <> []) as N1 by (unfold put; destruct (firstn (o_post s) h); discriminate).
      destruct r as [s1|e]; auto. specialize (IH (S i) g1 _ N1). destruct (first_steps (S i) g1 l _). exact IH. }
    specialize (NE [post] (map (fun s => mkObj s 0%nat) ss)). assert ([post] <> []) as N0 by discriminate. specialize (NE N0).
    cbn [Parallel.rounds]. destruct (first_steps 0 g (map (fun s => mkObj s 0%nat) ss) [post]) as [h1 r]. cbn [fst] in *.
    destruct r as [[g1 inp]|e]; auto.
    destruct (pool_away inp h1 NE) as (P1 & P2 & P3). destruct (in_pool inp h1) as [h2 r]. cbn [fst snd] in *.
    destruct r as [ss1|e]; auto.
    destruct (between g1 (map o_smp ss1)) as [[[g2 sm] stop]|e]; auto.
    destruct stop; auto.
    pose proof (rounds_away n g2 _ h2 (zip_away sm ss1 P3) P2) as Q.
    destruct (rounds false n g2 _ h2) as [h3 r]. cbn [fst] in *. congruence.
  Qed.
End Left.
