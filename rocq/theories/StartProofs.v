(** Proofs about the start of a run. *)
From Coq Require Import Reals String Ascii Arith Bool List Lia Lra.
From Verif Require Import Py PyFacts Params ParamsProofs Likelihood LikeSpec LikeProofs Mcmc DecorrProofs Start StartSpec.
Import ListNotations.
Open Scope R_scope.

Lemma begins_iff p k : startswith k p = true <-> begins p k.
Proof. unfold startswith, begins. apply prefix_occurs. Qed.
Lemma begins_other p c k q : begins p (String c k) -> q = p -> match p with String d _ => c = d | _ => True end.
Proof. intros [r E] _. destruct p; [exact I|]. cbn in E. now injection E. Qed.
(** names that start with different letters *)
Lemma not_both p q k : begins p k -> (match p, q with String a _, String b _ => a <> b | _, _ => False end) -> startswith k q = false.
Proof.
  intros [r ->] D. destruct (startswith _ q) eqn:E; [|reflexivity]. apply begins_iff in E as [r' E]. destruct p, q; try contradiction. cbn in E. injection E as -> _. now destruct D.
Qed.
Lemma usual_fun k x s : usual k x s -> usual_scale k (Some x) = Some s.
Proof.
  assert (NO : (forall p, In p ["per"; "logper"; "tc"; "tp"; "gamma"; "jit"]%string -> ~ begins p k) ->
    startswith k "per" = false /\ startswith k "logper" = false /\ startswith k "tc" = false /\ startswith k "tp" = false /\ startswith k "gamma" = false /\ startswith k "jit" = false).
  { intro H. repeat split; (destruct (startswith k _) eqn:E; [apply begins_iff in E; exfalso; eapply H; [|exact E]; cbn; tauto|reflexivity]). }
  intro U. unfold usual_scale. destruct U as [B P|B|B|B|B|N X|N X].
  - rewrite (proj2 (begins_iff _ _) B). destruct (Rlt_dec 0 x); [|contradiction]. f_equal. unfold log10.
    replace (x * (1 / 100000) * (ln x / ln 10)) with (x / 100000 * (ln x / ln 10)) by (unfold Rdiv; ring). rewrite Rabs_mult, (Rabs_pos_eq (x / 100000)) by lra. unfold Rdiv. ring.
  - rewrite (not_both "logper" "per" k B) by discriminate. rewrite (proj2 (begins_iff _ _) B). f_equal. rewrite Rabs_mult, Rabs_pos_eq by lra. field.
  - assert (startswith k "per" = false /\ startswith k "logper" = false) as [-> ->] by (destruct B as [B|B]; split; apply (not_both _ _ k B); discriminate).
    destruct B as [B|B]; apply begins_iff in B; rewrite B; [reflexivity|]. now rewrite orb_true_r.
  - rewrite (not_both "gamma" "per" k B), (not_both "gamma" "logper" k B), (not_both "gamma" "tc" k B), (not_both "gamma" "tp" k B) by discriminate. now rewrite (proj2 (begins_iff _ _) B).
  - rewrite (not_both "jit" "per" k B), (not_both "jit" "logper" k B), (not_both "jit" "tc" k B), (not_both "jit" "tp" k B), (not_both "jit" "gamma" k B) by discriminate. rewrite (proj2 (begins_iff _ _) B).
    cbn [orb]. do 2 f_equal. rewrite Rabs_mult, Rabs_pos_eq by lra. field.
  - destruct (NO N) as (-> & -> & -> & -> & -> & ->). cbn [orb]. destruct (Req_EM_T x 0); [contradiction|]. f_equal. rewrite Rabs_mult, Rabs_pos_eq by lra. field.
  - destruct (NO N) as (-> & -> & -> & -> & -> & ->). cbn [orb]. destruct (Req_EM_T x 0); [reflexivity|contradiction].
Qed.
Lemma usual_total k x : ~ begins "per" k \/ 0 < x -> exists s, usual k x s.
Proof.
  intro H. destruct (startswith k "per") eqn:E1; [apply begins_iff in E1; destruct H; [contradiction|]; eexists; now apply UPeriod|].
  destruct (startswith k "logper") eqn:E2; [apply begins_iff in E2; eexists; now apply ULogPeriod|].
  destruct (startswith k "tc") eqn:E3; [apply begins_iff in E3; eexists; apply UTime; now left|].
  destruct (startswith k "tp") eqn:E4; [apply begins_iff in E4; eexists; apply UTime; now right|].
  destruct (startswith k "gamma") eqn:E5; [apply begins_iff in E5; eexists; now apply UOffset|].
  destruct (startswith k "jit") eqn:E6; [apply begins_iff in E6; eexists; now apply UJitter|].
  assert (forall p, In p ["per"; "logper"; "tc"; "tp"; "gamma"; "jit"]%string -> ~ begins p k) as N.
  { intros p I B. apply begins_iff in B. cbn in I. destruct I as [<-|[<-|[<-|[<-|[<-|[<-|[]]]]]]]; congruence. }
  destruct (Req_EM_T x 0); eexists; [now apply UNull|now apply UOther].
Qed.
(** the usual scale is positive but for periods of one day *)
Lemma ln10 : 0 < ln 10. Proof. rewrite <- ln_1. apply ln_increasing; lra. Qed.
Lemma usual_pos k x s : usual k x s -> 0 <= s /\ (s = 0 -> begins "per" k /\ x = 1 \/ begins "logper" k /\ x = 0).
Proof.
  pose proof ln10 as L. intros [B P|B|B|B|B|N X|N X].
  - pose proof (Rabs_pos (ln x / ln 10)) as A. split; [unfold Rdiv; apply Rmult_le_pos; [apply Rmult_le_pos; lra|lra]|]. intro Z. left. split; [exact B|].
    assert (Rabs (ln x / ln 10) = 0) as AZ. { apply (Rmult_eq_reg_l (x / 100000)); [|lra]. lra. }
    destruct (Req_dec (ln x / ln 10) 0) as [Q|Q]; [|now apply Rabs_no_R0 in Q]. assert (ln x = 0) as LX. { replace (ln x) with (ln x / ln 10 * ln 10) by (field; lra). rewrite Q. lra. }
    apply ln_inv; [exact P|lra|now rewrite ln_1].
  - pose proof (Rabs_pos x). split; [lra|]. intro Z. right. split; [exact B|]. destruct (Req_dec x 0) as [Q|Q]; [exact Q|]. apply Rabs_no_R0 in Q. lra.
  - lra.
  - lra.
  - pose proof (Rmax_r (Rabs x / 10) (1 / 10)). split; lra.
  - apply Rabs_pos_lt in X. split; lra.
  - lra.
Qed.

(** the loop over the scales *)
Lemma nth_setscale v i s : forall j, nth_error (setscale v i s) j = if Nat.eqb i j then match nth_error v j with Some r => Some (mkRow (r_val r) (r_vary r) s (r_lin r)) | None => None end else nth_error v j.
Proof.
  intro j. unfold setscale. destruct (nth_error v i) as [r|] eqn:E.
  - destruct (Nat.eqb_spec i j) as [->|N]; [rewrite nth_list_upd_same by (apply nth_error_Some; congruence); now rewrite E|now apply nth_list_upd_other].
  - destruct (Nat.eqb_spec i j) as [->|N]; [now rewrite E|reflexivity].
Qed.
Lemma length_setscale v i s : length (setscale v i s) = length v.
Proof. unfold setscale. destruct (nth_error v i); [apply length_list_upd|reflexivity]. Qed.
Definition chosen (n : string) (r : row) : option R := if zero_scale (r_scale r) then usual_scale n (r_val r) else r_scale r.
Lemma pscales_spec c : forall v ns, NoDup c -> length ns = length c -> (forall i, In i c -> (i < length v)%nat) ->
  exists v', pscales v ns c = (v', Ok (map (fun ni => match nth_error v (snd ni) with Some r => chosen (fst ni) r | None => None end) (combine ns c))) /\ length v' = length v /\
  (forall i, ~ In i c -> nth_error v' i = nth_error v i) /\
  (forall j i n r, nth_error c j = Some i -> nth_error ns j = Some n -> nth_error v i = Some r -> nth_error v' i = Some (mkRow (r_val r) (r_vary r) (chosen n r) (r_lin r))).
Proof.
  induction c as [|i c IH]; intros v ns ND L R; destruct ns as [|n ns]; try discriminate.
  - exists v. cbn. split; [reflexivity|]. split; [reflexivity|]. split; [auto|]. intros [|?] ? ? ? E; discriminate E.
  - inversion ND as [|? ? NI ND']; subst. cbn [pscales]. destruct (nth_error v i) as [r|] eqn:E; [|apply nth_error_None in E; pose proof (R i (or_introl eq_refl)); lia].
    set (v1 := if zero_scale (r_scale r) then setscale v i (usual_scale n (r_val r)) else v).
    assert ((if zero_scale (r_scale r) then (setscale v i (usual_scale n (r_val r)), usual_scale n (r_val r)) else (v, r_scale r)) = (v1, chosen n r)) as -> by (unfold v1, chosen; destruct (zero_scale _); reflexivity).
    assert (length v1 = length v) as L1 by (unfold v1; destruct (zero_scale _); [apply length_setscale|reflexivity]).
    assert (forall j, j <> i -> nth_error v1 j = nth_error v j) as O1. { intros j N. unfold v1. destruct (zero_scale _); [|reflexivity]. rewrite nth_setscale. destruct (Nat.eqb_spec i j); [congruence|reflexivity]. }
    assert (nth_error v1 i = Some (mkRow (r_val r) (r_vary r) (chosen n r) (r_lin r))) as S1.
    { unfold v1, chosen. destruct (zero_scale (r_scale r)); [rewrite nth_setscale, Nat.eqb_refl, E; reflexivity|]. rewrite E. now destruct r. }
    destruct (IH v1 ns ND' ltac:(now injection L) (fun j J => eq_ind_r (fun z => (j < z)%nat) (R j (or_intror J)) L1)) as (v' & P & L' & OUT & INN). rewrite P. exists v'.
    split; [|split; [congruence|split]].
    + f_equal. cbn [combine map fst snd bind]. rewrite E. do 2 f_equal. apply map_ext_in. intros [m j] J. apply in_combine_r in J. cbn [fst snd]. rewrite O1; [reflexivity|]. intros ->. contradiction.
    + intros j NJ. rewrite OUT by (intro J; apply NJ; now right). apply O1. intros ->. apply NJ. now left.
    + intros [|j] i' n' r' C N V; cbn in C, N.
      * injection C as <-. injection N as <-. rewrite OUT by exact NI. rewrite E in V. injection V as <-. exact S1.
      * assert (i' <> i) as D by (intros ->; apply nth_error_In in C; contradiction). apply (INN j i' n' r' C N). now rewrite O1.
Qed.
Lemma nth_offsets x : forall s u j0 j a b, nth_error x j = Some a -> nth_error s j = Some b -> nth_error (offsets x s u j0) j = Some (opt_add a b (u (j0 + j)%nat)).
Proof.
  induction x as [|y x IH]; intros s u j0 [|j] a b X Q; try discriminate; destruct s as [|z s]; try discriminate; cbn in *.
  - injection X as ->. injection Q as ->. now rewrite Nat.add_0_r.
  - rewrite (IH s u (S j0) j a b X Q). do 2 f_equal. f_equal. lia.
Qed.
Lemma length_offsets x : forall s u j0, length s = length x -> length (offsets x s u j0) = length x.
Proof. induction x as [|y x IH]; intros [|z s] u j0 L; try discriminate; [reflexivity|]. cbn. f_equal. apply IH. now injection L. Qed.

(** the varied rows by their numbers *)
Lemma where_nth v : forall k j i, nth_error (where_vary k v) j = Some i <-> exists m r, i = (k + m)%nat /\ nth_error v m = Some r /\ r_vary r = true /\ length (filter r_vary (firstn m v)) = j.
Proof.
  induction v as [|q v IH]; intros k j i; cbn [where_vary].
  - split; [destruct j; discriminate|]. intros ([|m] & r & _ & E & _); discriminate E.
  - destruct (r_vary q) eqn:Q.
    + destruct j as [|j]; cbn [nth_error].
      * split; [intro E; injection E as <-; exists 0%nat, q; cbn; rewrite Nat.add_0_r; auto|]. intros ([|m] & r & -> & E & V & C); [now rewrite Nat.add_0_r|]. cbn in C. rewrite Q in C. discriminate C.
      * rewrite IH. split; intros (m & r & E & F & V & C).
        -- exists (S m), r. cbn. rewrite Q. cbn. repeat split; auto; lia.
        -- destruct m as [|m]; cbn in F, C; [discriminate C|]. rewrite Q in C. cbn in C. exists m, r. repeat split; auto; lia.
    + rewrite IH. split; intros (m & r & E & F & V & C).
      * exists (S m), r. cbn. rewrite Q. repeat split; auto; lia.
      * destruct m as [|m]; cbn in F, C; [injection F as <-; congruence|]. rewrite Q in C. exists m, r. repeat split; auto; lia.
Qed.
Lemma list_nth v j i : nth_error (list_vary_params v) j = Some i <-> exists r, nth_error v i = Some r /\ r_vary r = true /\ length (filter r_vary (firstn i v)) = j.
Proof. unfold list_vary_params. rewrite where_nth. cbn. split; [intros (m & r & -> & H); eauto|intros (r & H); eauto]. Qed.
Lemma list_count v : length (list_vary_params v) = n_free v.
Proof. unfold list_vary_params, n_free. generalize 0%nat. induction v as [|r v IH]; intro k; [reflexivity|]. cbn. destruct (r_vary r); cbn; now rewrite IH. Qed.
Definition named (v : list row) (names : list string) : Prop := forall i r, nth_error v i = Some r -> r_vary r = true -> exists k, nth_error names i = Some k.

Lemma start_gen v cache names nw ne u : cache_fresh cache v -> named v names ->
  exists v' xs ss, start (v, cache) names nw ne u = ((v', Some (list_vary_params v)), Ok (map (fun e => ensemble xs ss (walkers nw (n_free v)) (u e)) (seq 0 ne))) /\
    length xs = n_free v /\ length ss = n_free v /\
    (forall j k r, free v names j k r -> nth_error xs j = Some (r_val r) /\ nth_error ss j = Some (chosen k r)) /\
    length v' = length v /\
    (forall i r, nth_error v i = Some r -> r_vary r = false -> nth_error v' i = Some r) /\
    (forall i r k, nth_error v i = Some r -> r_vary r = true -> nth_error names i = Some k -> nth_error v' i = Some (mkRow (r_val r) (r_vary r) (chosen k r) (r_lin r))).
Proof.
  intros CF NM. unfold start. cbn [fst snd]. destruct (get_ok v cache CF) as (xs & c & G & -> & LX & XS). rewrite G.
  assert (length xs = n_free v) as LX' by (rewrite <- list_count; rewrite LX; symmetry; apply list_vary_length).
  set (c := list_vary_params v) in *.
  assert (exists ns, map_res (fun i => match nth_error names i with Some s => Ok s | None => Err IndexError end) c = Ok ns /\ length ns = length c /\ forall j i k, nth_error c j = Some i -> nth_error names i = Some k -> nth_error ns j = Some k) as (ns & NS & LN & NN).
  { exists (map (fun i => nth i names ""%string) c). split; [|split; [apply map_length|]].
    - apply map_res_nth; [apply map_length|]. intros j i y A B. rewrite (map_nth_error _ _ _ A) in B. injection B as <-. apply list_nth in A as (r & E & V & _). destruct (NM i r E V) as (k & K). rewrite K. now rewrite (nth_error_nth _ _ _ K).
    - intros j i k A K. rewrite (map_nth_error _ _ _ A). now rewrite (nth_error_nth _ _ _ K). }
  unfold name_vary_params. rewrite NS.
  destruct (pscales_spec c v ns (list_vary_nodup v) LN (vary_range v)) as (v' & P & L' & OUT & INN). rewrite P. cbn [bind].
  set (ss := map _ (combine ns c)) in *. exists v', xs, ss. rewrite LX'.
  split; [reflexivity|]. split; [reflexivity|]. split; [unfold ss; rewrite map_length, combine_length, LN, Nat.min_id; apply list_count|]. split; [|split; [exact L'|split]].
  - intros j k r (i & E & V & K & C). assert (nth_error c j = Some i) as A by (apply list_nth; eauto). destruct (XS j i A) as (r' & E' & X). rewrite E in E'. injection E' as <-. split; [exact X|].
    unfold ss. assert (nth_error (combine ns c) j = Some (k, i)) as Q.
    { pose proof (NN j i k A K) as B. clear -A B. clearbody c. revert c j A B. induction ns as [|n ns IH]; intros c j A B; [now destruct j|]. destruct c as [|z c]; [destruct j; discriminate A|]. destruct j as [|j]; cbn in *; [congruence|now apply IH]. }
    rewrite (map_nth_error _ _ _ Q). cbn [fst snd]. now rewrite E.
  - intros i r E V. rewrite OUT; [exact E|]. intro I. apply list_vary_in in I as (r' & E' & V'). congruence.
  - intros i r k E V K. assert (nth_error c (length (filter r_vary (firstn i v))) = Some i) as A by (apply list_nth; eauto). exact (INN _ i k r A (NN _ i k A K) E).
Qed.
Lemma scale_chosen k r s : scale_of k r s -> chosen k r = Some s.
Proof.
  unfold chosen. intros [[-> N]|[E (x & X & U)]].
  - cbn. destruct (Req_EM_T s 0); [contradiction|reflexivity].
  - rewrite E. cbn. destruct (Req_EM_T 0 0); [|contradiction]. rewrite X. now apply usual_fun.
Qed.
Lemma walkers_max a n : walkers a n = Nat.max a (2 * n).
Proof. unfold walkers. destruct (Nat.ltb_spec a (2 * n)); lia. Qed.
Lemma free_lt v names j k r : free v names j k r -> (j < n_free v)%nat.
Proof. intros (i & E & V & _ & C). rewrite <- list_count. apply nth_error_Some. assert (nth_error (list_vary_params v) j = Some i) as -> by (apply list_nth; eauto). discriminate. Qed.
Lemma free_ex v names j : named v names -> (j < n_free v)%nat -> exists k r, free v names j k r.
Proof.
  intros NM L. rewrite <- list_count in L. destruct (nth_error (list_vary_params v) j) as [i|] eqn:A; [|apply nth_error_None in A; lia].
  apply list_nth in A as (r & E & V & C). destruct (NM i r E V) as (k & K). exists k, r, i. auto.
Qed.
Lemma nth_map_seq {A} (f : nat -> A) n i y : nth_error (map f (seq 0 n)) i = Some y -> y = f i /\ (i < n)%nat.
Proof.
  intro H. assert (i < n)%nat as L. { rewrite <- (seq_length n 0), <- (map_length f). apply nth_error_Some. congruence. }
  split; [|exact L]. apply (nth_error_nth _ _ (f 0%nat)) in H. rewrite map_nth, seq_nth in H by exact L. now subst.
Qed.
Theorem starts v cache names nw ne u : cache_fresh cache v -> named v names -> (forall j k r, free v names j k r -> exists x s, r_val r = Some x /\ scale_of k r s) ->
  exists v' c P, start (v, cache) names nw ne u = ((v', c), Ok P) /\ length P = ne /\
  (forall e l, nth_error P e = Some l -> length l = Nat.max nw (2 * n_free v) /\ forall w p, nth_error l w = Some p -> length p = n_free v /\
     forall j k r x s, free v names j k r -> r_val r = Some x -> scale_of k r s -> nth_error p j = Some (Some (x + u e w j * s))) /\
  length v' = length v /\ forall i r, nth_error v i = Some r -> exists r', nth_error v' i = Some r' /\ same_but_scale r r' /\ (r_vary r = false -> r' = r) /\
    (forall k s, r_vary r = true -> nth_error names i = Some k -> scale_of k r s -> r_scale r' = Some s).
Proof.
  intros CF NM SC. destruct (start_gen v cache names nw ne u CF NM) as (v' & xs & ss & E & LX & LS & F & L' & FIX & VAR). exists v'. eexists. eexists. split; [exact E|].
  split; [now rewrite map_length, seq_length|]. split.
  - intros e l H. apply nth_map_seq in H as [-> _].
    split; [unfold ensemble; rewrite map_length, seq_length; apply walkers_max|]. intros w p W.
    unfold ensemble in W. apply nth_map_seq in W as [-> _].
    split; [rewrite length_offsets; congruence|]. intros j k r x s FR X S. destruct (F j k r FR) as [A B]. rewrite (nth_offsets _ _ _ _ _ _ _ A B). rewrite X, (scale_chosen _ _ _ S). reflexivity.
  - split; [exact L'|]. intros i r H. destruct (r_vary r) eqn:V.
    + destruct (NM i r H V) as (k & K). eexists. split; [exact (VAR i r k H V K)|]. split; [split; [reflexivity|split; reflexivity]|]. split; [discriminate|]. intros k' s _ K' S. cbn. rewrite K in K'. injection K' as <-. now apply scale_chosen.
    + exists r. split; [exact (FIX i r H V)|]. split; [split; [reflexivity|split; reflexivity]|]. split; [reflexivity|]. discriminate.
Qed.
