(** Examples and counterexamples for C86. *)
From Coq Require Import Reals String Ascii Arith ZArith Bool Lia Lra List.
From Verif Require Import Py PyFloat PyFacts PyFloatFacts Params Kepler Basis Likelihood LikeSpec LikeProofs LikeHist LikeDensity Prior PriorSpec PriorProofs Posterior PostProofs Parallel ParallelSpec ParallelProofs ParallelThms.
Import ListNotations.
Open Scope R_scope.

(** two points of data, y = 0 +- 1 and 1 +- 2, model 0, jitter free, gamma linear, prior on gamma *)
Definition ex_data : list datum := [mkDatum 0 0 1; mkDatum 0 1 2].
Definition ex_like : rvlike :=
  mkLike [0; 0] [0; 1] [1; 2] "gamma_a" "jit_a" 0 1 "_a" ["_a"] [] [] (mkParams [] (basis_init "per tp e w k" 0) 0 [] None) [("gamma_a", 0%nat); ("jit_a", 1%nat)].
Definition ex_fwd : forward := fun _ t => Ok (map (fun _ => 0) t).
Definition ex_rows (g j : R) : list row := [mkRow (Some g) false None true; mkRow (Some j) true None false].
Definition ex_post := post_logprob (basis_init "per tp e w k" 0) (l_indices ex_like) (rv_logprob ex_fwd ex_like) [PGaussian "gamma_a" 0 1].

(** a sampler that keeps the log-probabilities at a jitter of 0, in its first step, and at 1, in the others *)
Definition ex_where (i : nat) (g : unit) (s : list ext) : res (unit * unit) := Ok (g, tt).
Definition ex_ask (x : R) (p : unit) (s : list ext) : prog (list ext) := Ask [Some x] (fun y => Ret (s ++ [y])%list).
Definition ex_between (g : unit) (ss : list (list ext)) : res (unit * list (list ext) * bool) := Ok (g, ss, false).
Definition ex_run (lp : list row -> list row * res ext) (serial : bool) (n : nat) (ss : list (list ext)) (st : list row * option (list nat)) :=
  sampling (list ext) unit unit _ (logprob_array lp) ex_where (ex_ask 0) (ex_ask 1) ex_between (fun es => hd ValueError es) serial n tt ss st.

Lemma ex_z j : zmean (fun _ => 0) j ex_data = (1 + j * j) / (5 + 2 * (j * j)).
Proof.
  unfold zmean, wsum, var_of, ex_data. cbn. assert (0 <= j * j) by nra.
  field. repeat split; nra.
Qed.

Lemma ex_lik g j : rv_logprob ex_fwd ex_like (ex_rows g j) =
  (ex_rows (zmean (fun _ => 0) j ex_data) j,
   Ok (Fin (gauss_loglike (fun _ => 0) (zmean (fun _ => 0) j ex_data) j ex_data + ln (sqrt (2 * PI * / wsum j ex_data))))).
Proof.
  destruct (logprob_marginal ex_fwd ex_like (ex_rows g j) ex_data (fun _ => 0) (mkRow (Some g) false None true) j) as [_ ->];
    try reflexivity; try discriminate.
  - split; [|split]; reflexivity.
  - intros p [<-|[<-|[]]]; unfold var_of; cbn; nra.
Qed.

Lemma ex_post_value j : exists K, forall g,
  ex_post (ex_rows g j) = (ex_rows (zmean (fun _ => 0) j ex_data) j, Ok (Fin (- (1 / 2) * (g * g) + K))).
Proof.
  set (X := gauss_loglike (fun _ => 0) (zmean (fun _ => 0) j ex_data) j ex_data + ln (sqrt (2 * PI * / wsum j ex_data))).
  exists (- (1 / 2) * ln (1 * 1 * 2 * PI) + X). intro g. unfold ex_post.
  rewrite (post_sum _ _ _ _ _ [- (1 / 2) * (g * g) - 1 / 2 * ln (1 * 1 * 2 * PI)] (ex_rows (zmean (fun _ => 0) j ex_data) j) (Fin X)); auto.
  - cbn [rsum fold_right ext_add]. do 3 f_equal. cbn. ring.
  - constructor; [|constructor]. rewrite (gauss_call "gamma_a" 0 1 Rlt_0_1 _ _ _ g).
    + unfold gauss_d. do 2 f_equal. f_equal. f_equal. field.
    + exists 0%nat. eexists. split; [reflexivity|]. split; reflexivity.
  - apply ex_lik.
Qed.

Lemma ex_set g j c x : cache_fresh c (ex_rows g j) -> set_vary_params c (ex_rows g j) [Some x] = (ex_rows g x, Some [1%nat], Ok tt).
Proof. intro C. unfold set_vary_params. rewrite (refresh_fresh c _ _ C). reflexivity. Qed.

Lemma ex_eval j : exists K, forall g j' c, cache_fresh c (ex_rows g j') ->
  logprob_array ex_post (ex_rows g j', c) [Some j] =
  ((ex_rows ((1 + j * j) / (5 + 2 * (j * j))) j, Some [1%nat]), Ok (Fin (- (1 / 2) * (g * g) + K))).
Proof.
  destruct (ex_post_value j) as [K HK]. exists K. intros g j' c C. unfold logprob_array. cbn [fst snd].
  rewrite (ex_set g j' c j C), HK, ex_z. reflexivity.
Qed.

(** the last log-probability of the second ensemble is not the same *)
Theorem prior_differs :
  ~ agrees (snd (ex_run ex_post true 1 [[]; []] (ex_rows 0 0, None))) (snd (ex_run ex_post false 1 [[]; []] (ex_rows 0 0, None))).
Proof.
  destruct (ex_eval 0) as [K0 E0], (ex_eval 1) as [K1 E1].
  assert (forall g j, cache_fresh (Some [1%nat]) (ex_rows g j)) as CF by (intros; right; reflexivity).
  assert (cache_fresh None (ex_rows 0 0)) as C0 by (now left).
  unfold ex_run, sampling, ex_ask.
  cbn [rounds map first_steps ex_where o_smp o_post exec_on nth_error exec].
  rewrite (E0 0 0 None C0). cbn [put firstn skipn app exec].
  cbn [exec_on nth_error exec]. rewrite E0 by apply CF. cbn [put firstn skipn app exec bind].
  cbn [in_turn exec_on nth_error exec o_smp o_post in_pool map worker fst snd].
  rewrite !E1 by apply CF. cbn [put firstn skipn app exec bind errors values received length in_turn exec_on nth_error o_smp o_post].
  rewrite !E1 by apply CF.
  cbn [put firstn skipn app exec bind errors values received length in_turn exec_on nth_error o_smp o_post map ex_between combine fst snd agrees].
  unfold in_pool, worker. cbn [map fst snd o_smp o_post nth_error exec].
  rewrite !E1 by apply CF.
  cbn [exec bind errors values received length app o_smp o_post map ex_between combine fst snd].
  intro E. injection E. intros. lra.
Qed.

(** ** the posterior given is not left as it was: it holds a point that was tried, and not the same in both ways *)
Definition flat : list row -> list row * res ext := fun v => (v, Ok (Fin 0)).
Definition one_row (x : R) : list row := [mkRow (Some x) true None false].

Lemma left_example n :
  nth_error (fst (ex_run flat true (S n) [[]; []] (one_row 7, None))) 0 = Some (one_row 1, Some [0%nat]) /\
  nth_error (fst (ex_run flat false (S n) [[]; []] (one_row 7, None))) 0 = Some (one_row 0, Some [0%nat]).
Proof.
  assert (forall x c y, cache_fresh c (one_row x) -> logprob_array flat (one_row x, c) [Some y] = ((one_row y, Some [0%nat]), Ok (Fin 0))) as E.
  { intros x c y C. unfold logprob_array, set_vary_params. cbn [fst snd]. rewrite (refresh_fresh c _ _ C). reflexivity. }
  assert (forall g, cache_fresh (Some [0%nat]) (one_row g)) as CF by (intros; right; reflexivity).
  assert (forall x c, cache_fresh c (one_row x) -> forall l l' g, exists l1 l1', 
    forall k, rounds (list ext) unit unit _ (logprob_array flat) ex_where (ex_ask 0) (ex_ask 1) ex_between (fun es => hd ValueError es) true (S k) g [mkObj l 0; mkObj l' 0] [(one_row x, c)] =
    rounds (list ext) unit unit _ (logprob_array flat) ex_where (ex_ask 0) (ex_ask 1) ex_between (fun es => hd ValueError es) true k g [mkObj l1 0; mkObj l1' 0] [(one_row 1, Some [0%nat])]) as RS.
  { intros x c C l l' g. do 2 eexists. intro k. unfold ex_ask at 1 2.
    cbn [rounds map first_steps ex_where o_smp o_post exec_on nth_error exec].
    rewrite (E x c 0 C). cbn [put firstn skipn app exec].
    cbn [exec_on nth_error exec]. rewrite E by apply CF. cbn [put firstn skipn app exec bind].
    cbn [in_turn exec_on nth_error exec o_smp o_post fst snd].
    rewrite !E by apply CF. cbn [put firstn skipn app exec bind length in_turn exec_on nth_error o_smp o_post].
    rewrite !E by apply CF.
    cbn [put firstn skipn app exec bind in_turn o_smp o_post map ex_between combine fst snd]. reflexivity. }
  split.
  - unfold ex_run, sampling. cbn [map].
    assert (forall k x c, cache_fresh c (one_row x) -> forall l l', (k = O -> x = 1 /\ c = Some [0%nat]) ->
      nth_error (fst (rounds (list ext) unit unit _ (logprob_array flat) ex_where (ex_ask 0) (ex_ask 1) ex_between (fun es => hd ValueError es) true k tt [mkObj l 0; mkObj l' 0] [(one_row x, c)])) 0 = Some (one_row 1, Some [0%nat])) as Q.
    { induction k as [|k IH]; intros x c C l l' H.
      - destruct (H eq_refl) as [-> ->]. reflexivity.
      - destruct (RS x c C l l' tt) as (l1 & l1' & ->). apply IH; auto. }
    specialize (Q (S n) 7 None (or_introl eq_refl) [] []).
    destruct (rounds _ _ _ _ _ _ _ _ _ _ _ _ _ _ _) as [h r]. apply Q. discriminate.
  - unfold ex_run. rewrite left_first. unfold ex_ask. cbn [map first_steps ex_where o_smp o_post exec_on nth_error exec].
    rewrite (E 7 None 0) by (now left). cbn [put firstn skipn app exec].
    cbn [exec_on nth_error exec]. rewrite E by apply CF. reflexivity.
Qed.

Lemma steady_example : steady (logprob_array flat) (fun x => snd (logprob_array flat (one_row 7, None) x)) (inv (fun _ => False) (one_row 7)) /\
  inv (fun _ => False) (one_row 7) (one_row 7, None) /\ inv (fun _ => False) (one_row 7) (one_row 3, None).
Proof.
  split; [|split].
  - apply steady_array; [| |now left].
    + intros v _. apply agree_refl.
    + intros v w _ _. reflexivity.
  - split; [apply agree_refl|now left].
  - split; [|now left]. split; [reflexivity|]. intros [|[|i]] r s; cbn; intros E E'; try discriminate.
    inversion E; inversion E'; subst. cbn. repeat split; auto. left. left. exists (mkRow (Some 7) true None false). split; reflexivity.
Qed.
