(** Rows of the returned DataFrame (C36) and the Gelman-Rubin statistic (C37). *)
From Coq Require Import Reals Arith ZArith Bool Lia Lra Permutation List.
From Verif Require Import Py PyFloat PyFacts PyFloatFacts Mcmc McmcSpec McmcProofs.
Import ListNotations.
Open Scope R_scope.

(** ** Rows *)

Section Rows.
Variable g : mcfg.

(** [nw] walkers with [ndim] coordinates and [nw] log-probabilities *)
Definition shaped (x : sample) : Prop :=
  length (s_pos x) = nw_of g /\ Forall (fun p => length p = g_ndim g) (s_pos x) /\ length (s_lnp x) = nw_of g.
Definition walker_row (w : nat) (x : sample) : list (option R) * option ext :=
  (map Some (nth w (s_pos x) []), nth_error (s_lnp x) w).

Lemma dstack_chain_at chains i j : forall k,
  dstack_at None (map (chain_T g) chains) i j k = at3 _ (chain_T g (concat chains)) i j k.
Proof.
  induction chains as [|c r IH]; intro k; cbn [map dstack_at concat].
  - cbn. now destruct k.
  - change (d2 _ (chain_T g c)) with (length c). destruct (Nat.ltb_spec k (length c)).
    + cbn. now rewrite nth_error_app1.
    + rewrite IH. cbn. now rewrite nth_error_app2.
Qed.
Lemma dstack_lnp_at chains i j : forall k,
  dstack_at None (map (lnp_T g) chains) i j k = at3 _ (lnp_T g (concat chains)) i j k.
Proof.
  induction chains as [|c r IH]; intro k; cbn [map dstack_at concat].
  - cbn. now destruct k.
  - change (d2 _ (lnp_T g c)) with (length c). destruct (Nat.ltb_spec k (length c)).
    + cbn. now rewrite nth_error_app1.
    + rewrite IH. cbn. now rewrite nth_error_app2.
Qed.
Lemma dstack_d2 {A} (F : list sample -> arr3 A) chains : (forall c, d2 _ (F c) = length c) ->
  fold_right (fun a n => (d2 _ a + n)%nat) 0%nat (map F chains) = length (concat chains).
Proof. intro H. induction chains; cbn; auto. now rewrite H, IHchains, app_length. Qed.

Lemma map_seq_mul {B} (f : nat -> B) t : forall n a,
  map f (seq (a * t) (n * t)) = flat_map (fun w => map (fun k => f (w * t + k)%nat) (seq 0 t)) (seq a n).
Proof.
  induction n as [|n IH]; intro a; [reflexivity|].
  cbn [Nat.mul seq flat_map]. rewrite seq_app, map_app. f_equal.
  - replace (a * t)%nat with (a * t + 0)%nat at 1 by lia. generalize 0%nat. induction t as [|t IHt] in a |- *; intro z; auto.
    assert (forall m z b, map f (seq (b + z) m) = map (fun k => f (b + k)%nat) (seq z m)) as G.
    { clear. induction m; intros z b; cbn; auto. f_equal. rewrite <- IHm. do 2 f_equal. lia. }
    apply G.
  - rewrite <- IH. do 2 f_equal. lia.
Qed.

Lemma map_nth_error_seq {A} (l : list A) : map (nth_error l) (seq 0 (length l)) = map Some l.
Proof.
  induction l as [|x l IH]; auto. cbn [length seq map]. f_equal. rewrite <- seq_shift, map_map. exact IH.
Qed.
Lemma map_seq_list {A B} (f : nat -> B) (h : A -> B) (l : list A) :
  (forall k x, nth_error l k = Some x -> f k = h x) -> map f (seq 0 (length l)) = map h l.
Proof.
  revert f. induction l as [|x l IH]; intros f H; auto. cbn [length seq map]. f_equal; [apply (H 0%nat); auto|].
  rewrite <- seq_shift, map_map. apply IH. intros k y Hy. apply (H (S k) y Hy).
Qed.

Lemma df_rows_eq chains : chains <> [] -> Forall shaped (concat chains) ->
  df_rows g chains = flat_map (fun w => map (walker_row w) (concat chains)) (seq 0 (nw_of g)).
Proof.
  intros Hne Hs. unfold df_rows. destruct chains as [|c0 r0] eqn:Ec; [easy|]. rewrite <- Ec in *.
  assert (d0 _ (dstack None (map (chain_T g) chains)) = g_ndim g) as D0 by (rewrite Ec; reflexivity).
  assert (d1 _ (dstack None (map (chain_T g) chains)) = nw_of g) as D1 by (rewrite Ec; reflexivity).
  assert (d2 _ (dstack None (map (chain_T g) chains)) = length (concat chains)) as D2 by (apply dstack_d2; reflexivity).
  assert (d2 _ (dstack None (map (lnp_T g) chains)) = length (concat chains)) as D2' by (apply dstack_d2; reflexivity).
  rewrite D1, D2. rewrite <- (Nat.mul_0_l (length (concat chains))) at 1. rewrite map_seq_mul.
  rewrite !flat_map_concat_map. f_equal. apply map_ext_in. intros w Hw. apply in_seq in Hw.
  apply map_seq_list. intros k x Hk. unfold df_row, walker_row, reshape_at. rewrite D0, D2, D2'.
  assert (k < length (concat chains))%nat as Lk by (apply nth_error_Some; congruence).
  assert ((w * length (concat chains) + k) / length (concat chains) = w)%nat as ->.
  { rewrite Nat.div_add_l by lia. rewrite Nat.div_small by lia. lia. }
  assert ((w * length (concat chains) + k) mod length (concat chains) = k)%nat as ->.
  { rewrite Nat.add_comm, Nat.mod_add by lia. apply Nat.mod_small. exact Lk. }
  cbn [dstack at3]. rewrite Forall_forall in Hs. destruct (Hs x (nth_error_In _ _ Hk)) as [S1 [S2 S3]]. f_equal.
  - rewrite (map_ext _ (fun j => match nth_error (s_pos x) w with Some p => nth_error p j | None => None end)).
    2:{ intro j. rewrite dstack_chain_at. cbn [chain_T at3]. now rewrite Hk. }
    destruct (nth_error (s_pos x) w) as [p|] eqn:Ep.
    + rewrite (nth_error_nth _ _ _ Ep). rewrite Forall_forall in S2. rewrite <- (S2 p (nth_error_In _ _ Ep)). apply map_nth_error_seq.
    + apply nth_error_None in Ep. lia.
  - rewrite dstack_lnp_at. cbn [lnp_T at3]. now rewrite Hk.
Qed.

Lemma flat_map_nth {B} (f : nat -> list B) t : (forall w, length (f w) = t) -> forall n a w k, (w < n)%nat -> (k < t)%nat ->
  nth_error (flat_map f (seq a n)) (w * t + k) = nth_error (f (a + w)%nat) k.
Proof.
  intro L. induction n as [|n IH]; intros a w k Hw Hk; [lia|]. cbn [seq flat_map]. destruct w as [|w].
  - rewrite Nat.mul_0_l, Nat.add_0_r. cbn [Nat.add]. rewrite nth_error_app1 by (rewrite L; exact Hk). reflexivity.
  - rewrite nth_error_app2 by (rewrite L; cbn; lia). rewrite L. replace (S w * t + k - t)%nat with (w * t + k)%nat by lia.
    rewrite IH by lia. f_equal. f_equal. lia.
Qed.

(** position of sample [s] of ensemble [e] in the concatenation *)
Fixpoint offset {A} (chains : list (list A)) (e : nat) : nat :=
  match e, chains with
  | S e', c :: r => (length c + offset r e')%nat
  | _, _ => 0%nat
  end.
Lemma concat_nth {A} (chains : list (list A)) : forall e c s, nth_error chains e = Some c -> (s < length c)%nat ->
  nth_error (concat chains) (offset chains e + s) = nth_error c s /\ (offset chains e + s < length (concat chains))%nat.
Proof.
  induction chains as [|c0 r IH]; intros [|e] c s H Hs; cbn in H; try discriminate.
  - injection H as ->. cbn [offset concat Nat.add]. rewrite app_length, nth_error_app1 by lia. split; [auto|lia].
  - cbn [offset concat]. destruct (IH e c s H Hs) as [A1 A2]. rewrite app_length, nth_error_app2 by lia.
    replace (length c0 + offset r e + s - length c0)%nat with (offset r e + s)%nat by lia. split; [exact A1|lia].
Qed.
Lemma concat_inj {A} (chains : list (list A)) : forall e e' c c' s s', nth_error chains e = Some c -> nth_error chains e' = Some c' ->
  (s < length c)%nat -> (s' < length c')%nat -> (offset chains e + s = offset chains e' + s')%nat -> e = e' /\ s = s'.
Proof.
  induction chains as [|c0 r IH]; intros [|e] [|e'] c c' s s' H H' L L' E; cbn in H, H'; try discriminate; cbn [offset] in E.
  - auto.
  - injection H as ->. lia.
  - injection H' as ->. lia.
  - destruct (IH e e' c c' s s' H H' L L' ltac:(lia)). auto.
Qed.
Lemma concat_surj {A} (chains : list (list A)) : forall k, (k < length (concat chains))%nat ->
  exists e c s, nth_error chains e = Some c /\ (s < length c)%nat /\ k = (offset chains e + s)%nat.
Proof.
  induction chains as [|c r IH]; intros k Hk; cbn in Hk; [lia|]. rewrite app_length in Hk.
  destruct (Nat.lt_ge_cases k (length c)).
  - exists 0%nat, c, k. auto.
  - destruct (IH (k - length c)%nat ltac:(lia)) as [e [c' [s [A1 [A2 A3]]]]]. exists (S e), c', s.
    cbn [nth_error offset]. split; [exact A1|]. split; [exact A2|]. lia.
Qed.

(** a valid triple: ensemble, walker, step *)
Definition valid (chains : list (list sample)) (t : nat * nat * nat) : Prop :=
  let '(e, w, s) := t in (w < nw_of g)%nat /\ exists c, nth_error chains e = Some c /\ (s < length c)%nat.
Definition row_of (chains : list (list sample)) (t : nat * nat * nat) (row : list (option R) * option ext) : Prop :=
  let '(e, w, s) := t in exists c x p l, nth_error chains e = Some c /\ nth_error c s = Some x /\
    nth_error (s_pos x) w = Some p /\ nth_error (s_lnp x) w = Some l /\ row = (map Some p, Some l).

Lemma df_rows_triples chains : chains <> [] -> Forall shaped (concat chains) ->
  exists rowno : nat * nat * nat -> nat,
    (forall t, valid chains t -> exists row, nth_error (df_rows g chains) (rowno t) = Some row /\ row_of chains t row) /\
    (forall t t', valid chains t -> valid chains t' -> rowno t = rowno t' -> t = t') /\
    (forall k, (k < length (df_rows g chains))%nat -> exists t, valid chains t /\ rowno t = k).
Proof.
  intros Hne Hs. set (T := length (concat chains)).
  assert (forall w, length (map (walker_row w) (concat chains)) = T) as LT by (intro; apply map_length).
  exists (fun '(e, w, s) => (w * T + (offset chains e + s))%nat). split; [|split].
  - intros [[e w] s] [Hw [c [Hc Hl]]]. destruct (concat_nth chains e c s Hc Hl) as [A1 A2].
    rewrite df_rows_eq by auto. rewrite (flat_map_nth _ T LT) by auto. cbn [Nat.add].
    apply nth_error_Some in Hl. destruct (nth_error c s) as [x|] eqn:Ex; [|easy].
    rewrite nth_error_map, A1. cbn [option_map]. eexists. split; [reflexivity|].
    rewrite Forall_forall in Hs. destruct (Hs x (nth_error_In _ _ A1)) as [S1 [S2 S3]].
    destruct (nth_error (s_pos x) w) as [p|] eqn:Ep; [|apply nth_error_None in Ep; lia].
    destruct (nth_error (s_lnp x) w) as [l|] eqn:El; [|apply nth_error_None in El; lia].
    exists c, x, p, l. split; [exact Hc|]. split; [exact Ex|]. split; [exact Ep|]. split; [exact El|].
    unfold walker_row. now rewrite (nth_error_nth _ _ _ Ep), El.
  - intros [[e w] s] [[e' w'] s'] [Hw [c [Hc Hl]]] [Hw' [c' [Hc' Hl']]] E.
    destruct (concat_nth chains e c s Hc Hl) as [_ A2]. destruct (concat_nth chains e' c' s' Hc' Hl') as [_ A2']. fold T in A2, A2'.
    assert (w = w') by nia. subst w'. destruct (concat_inj chains e e' c c' s s' Hc Hc' Hl Hl' ltac:(lia)). subst. reflexivity.
  - intros k Hk. rewrite df_rows_eq in Hk by auto.
    assert (length (flat_map (fun w => map (walker_row w) (concat chains)) (seq 0 (nw_of g))) = (nw_of g * T)%nat) as L.
    { clear Hk. generalize 0%nat. induction (nw_of g) as [|n IH]; intro a; [reflexivity|]. cbn [seq flat_map]. rewrite app_length, LT, IH. reflexivity. }
    rewrite L in Hk. assert (T <> 0)%nat by (intro Z; rewrite Z in Hk; lia).
    destruct (concat_surj chains (k mod T)) as [e [c [s [A1 [A2 A3]]]]]; [apply Nat.mod_upper_bound; auto|].
    exists (e, (k / T)%nat, s). split.
    + split; [apply Nat.div_lt_upper_bound; lia|]. exists c. auto.
    + rewrite <- A3. rewrite (Nat.div_mod k T) at 3 by auto. lia.
Qed.

(** ** Thinning *)
Lemma every_nth {A} t : (1 <= t)%nat -> forall fuel (l : list A) i, (length l <= fuel)%nat ->
  nth_error (every fuel t l) i = nth_error l (i * t).
Proof.
  intro Ht. induction fuel as [|f IH]; intros l i Hf.
  - destruct l; [|cbn in Hf; lia]. cbn. destruct i; cbn; auto. now destruct (t + i * t)%nat.
  - destruct l as [|x l]; [cbn; destruct i; cbn; auto; now destruct (t + i * t)%nat|].
    cbn [every]. destruct i as [|i]; [reflexivity|]. cbn [nth_error]. rewrite IH.
    2:{ rewrite skipn_length. cbn [length] in *. lia. }
    assert (forall n (l' : list A) k, nth_error (skipn n l') k = nth_error l' (n + k)) as G.
    { clear. induction n; intros [|y l'] k; cbn; auto. now destruct k. }
    rewrite G. reflexivity.
Qed.
Lemma thinned_nth {A} t (l : list A) : (1 <= t)%nat -> exists l', thinned t l = Ok l' /\ forall i, nth_error l' i = nth_error l (i * t).
Proof. intro H. destruct t as [|t]; [lia|]. eexists. split; [reflexivity|]. intro i. apply every_nth; lia. Qed.
End Rows.

(** ** Gelman-Rubin *)

Lemma mean_affine a b l : l <> [] -> mean (map (fun x => a * x + b) l) = a * mean l + b.
Proof.
  intro H. unfold mean. rewrite map_length. assert (INR (length l) <> 0) as N by (destruct l; [easy|apply not_0_INR; discriminate]).
  assert (rsum (map (fun x => a * x + b) l) = a * rsum l + INR (length l) * b) as ->.
  { clear. induction l as [|x l IH]; [cbn; lra|]. rewrite map_cons, !rsum_cons, IH.
    change (length (x :: l)) with (S (length l)). rewrite S_INR. lra. }
  field. exact N.
Qed.
Lemma var_affine a b l : l <> [] -> var (map (fun x => a * x + b) l) = a ^ 2 * var l.
Proof.
  intro H. unfold var. rewrite (mean_affine a b l H), map_map.
  rewrite (map_ext _ (fun x => a ^ 2 * (x - mean l) ^ 2)) by (intro; ring).
  rewrite <- (map_map (fun x => (x - mean l) ^ 2) (fun y => a ^ 2 * y)).
  rewrite (map_ext (fun y => a ^ 2 * y) (fun y => a ^ 2 * y + 0)) by (intro; ring).
  rewrite mean_affine by (destruct l; [easy|discriminate]). lra.
Qed.

Definition rescale (a b : R) (pars : list (list R)) : list (list R) := map (map (fun x => a * x + b)) pars.

Lemma within_rescale a b pars : Forall (fun l => l <> []) pars -> pars <> [] -> within (rescale a b pars) = a ^ 2 * within pars.
Proof.
  intros H Hne. unfold within, rescale. rewrite map_map. rewrite Forall_forall in H.
  rewrite (map_ext_in _ (fun l => a ^ 2 * var l)) by (intros l Hl; apply var_affine; auto).
  rewrite <- (map_map var (fun y => a ^ 2 * y)).
  rewrite (map_ext (fun y => a ^ 2 * y) (fun y => a ^ 2 * y + 0)) by (intro; ring).
  rewrite mean_affine by (destruct pars; [easy|discriminate]). lra.
Qed.
Lemma vom_rescale a b pars : Forall (fun l => l <> []) pars -> pars <> [] -> var_of_means (rescale a b pars) = a ^ 2 * var_of_means pars.
Proof.
  intros H Hne. unfold var_of_means, rescale. rewrite map_map. rewrite Forall_forall in H.
  rewrite (map_ext_in _ (fun l => a * mean l + b)) by (intros l Hl; apply mean_affine; auto).
  rewrite <- (map_map mean (fun y => a * y + b)). apply var_affine. destruct pars; [easy|discriminate].
Qed.

Lemma ext_div_scale k x y : 0 < k -> ext_div (Fin (k * x)) (Fin (k * y)) = ext_div (Fin x) (Fin y).
Proof.
  intro H. cbn [ext_div]. unfold reqb. destruct (Req_EM_T (k * y) 0) as [E|E], (Req_EM_T y 0) as [F|F].
  - unfold inf_of, rltb. destruct (Rlt_dec 0 (k * x)), (Rlt_dec 0 x); try reflexivity; try (exfalso; nra).
    destruct (Rlt_dec (k * x) 0), (Rlt_dec x 0); try reflexivity; exfalso; nra.
  - exfalso. apply Rmult_integral in E. lra.
  - exfalso. subst. lra.
  - f_equal. field. split; lra.
Qed.

Lemma gr_rescale n a b pars : a <> 0 -> Forall (fun l => l <> []) pars -> pars <> [] ->
  gelman_rubin n (rescale a b pars) = gelman_rubin n pars.
Proof.
  intros Ha H Hne. unfold gelman_rubin, var_estimate. rewrite within_rescale, vom_rescale by auto. f_equal.
  replace ((1 - 1 / n) * (a ^ 2 * within pars) + 1 / n * (a ^ 2 * var_of_means pars * n))
    with (a ^ 2 * ((1 - 1 / n) * within pars + 1 / n * (var_of_means pars * n))) by ring.
  apply ext_div_scale. assert (0 <= a ^ 2) by apply pow2_ge_0. assert (a ^ 2 <> 0) by (apply pow_nonzero; exact Ha). lra.
Qed.

Lemma mean_perm l l' : Permutation l l' -> mean l = mean l'.
Proof. intro H. unfold mean. rewrite (rsum_perm l l' H), (Permutation_length H). reflexivity. Qed.
Lemma var_perm l l' : Permutation l l' -> var l = var l'.
Proof. intro H. unfold var. rewrite (mean_perm l l' H). apply mean_perm. now apply Permutation_map. Qed.
Lemma gr_perm n pars pars' : Permutation pars pars' -> gelman_rubin n pars = gelman_rubin n pars'.
Proof.
  intro H. unfold gelman_rubin, var_estimate, within, var_of_means.
  rewrite (mean_perm (map var pars) (map var pars')) by now apply Permutation_map.
  rewrite (var_perm (map mean pars) (map mean pars')) by now apply Permutation_map. reflexivity.
Qed.

Lemma var_nonneg l : 0 <= var l.
Proof.
  unfold var, mean at 1. rewrite map_length. destruct l as [|x l]; [cbn; lra|]. set (m := mean (x :: l)).
  assert (0 < INR (length (x :: l))) by (apply lt_0_INR; cbn; lia).
  apply Rmult_le_pos; [|left; now apply Rinv_0_lt_compat].
  apply rsum_nonneg. intros y Hy. apply in_map_iff in Hy as [z [<- _]]. apply pow2_ge_0.
Qed.
Lemma rsum_zero l : (forall x, In x l -> 0 <= x) -> rsum l = 0 -> forall x, In x l -> x = 0.
Proof.
  induction l as [|y l IH]; intros H E x Hx; [destruct Hx|]. rewrite rsum_cons in E.
  assert (0 <= y) by (apply H; now left). assert (0 <= rsum l) by (apply rsum_nonneg; intros; apply H; now right).
  destruct Hx as [<-|Hx]; [lra|]. apply IH; auto; [intros; apply H; now right|lra].
Qed.
Lemma var_zero l : var l = 0 <-> forall x y, In x l -> In y l -> x = y.
Proof.
  split.
  - intros H x y Hx Hy. assert (forall z, In z l -> z = mean l) as G; [|rewrite (G x Hx), (G y Hy); reflexivity].
    intros z Hz. unfold var, mean at 1 in H. rewrite map_length in H.
    assert (0 < INR (length l)) as P by (apply lt_0_INR; destruct l; [destruct Hz|cbn; lia]).
    assert (rsum (map (fun t => (t - mean l) ^ 2) l) = 0) as Z.
    { apply (Rmult_eq_reg_r (/ INR (length l))); [|apply Rinv_neq_0_compat; lra]. unfold Rdiv in H. rewrite H. lra. }
    assert ((z - mean l) ^ 2 = 0) as Q.
    { apply (rsum_zero _ (fun t Ht => ltac:(apply in_map_iff in Ht as [u [<- _]]; apply pow2_ge_0)) Z).
      apply in_map_iff. exists z. auto. }
    assert (z - mean l = 0) by nra. lra.
  - intro H. destruct l as [|x l]; [unfold var, mean; cbn; lra|].
    assert (forall z, In z (x :: l) -> z = x) as G by (intros z Hz; apply H; [exact Hz|now left]).
    assert (mean (x :: l) = x) as M.
    { unfold mean. assert (rsum (x :: l) = INR (length (x :: l)) * x) as ->.
      { revert G. generalize (x :: l) as L. clear. induction L as [|y L IH]; intro G; [cbn; lra|].
        rewrite rsum_cons, IH by (intros; apply G; now right). change (length (y :: L)) with (S (length L)).
        rewrite S_INR, (G y) by now left. lra. }
      field. apply not_0_INR. discriminate. }
    unfold var. rewrite M. rewrite (map_ext_in _ (fun t => 0 * t + 0)).
    + rewrite mean_affine by discriminate. lra.
    + intros t Ht. rewrite (G t Ht). ring.
Qed.

Lemma gr_formula n pars : 1 <= n -> 0 < within pars ->
  gelman_rubin n pars = Fin (sqrt (1 - 1 / n + var_of_means pars / within pars)).
Proof.
  intros Hn W. unfold gelman_rubin, var_estimate. rewrite ext_div_fin by lra.
  replace (((1 - 1 / n) * within pars + 1 / n * (var_of_means pars * n)) / within pars)
    with (1 - 1 / n + var_of_means pars / within pars) by (field; lra).
  apply ext_sqrt_fin. pose proof (var_nonneg (map mean pars)). fold (var_of_means pars) in H.
  assert (1 / n <= 1). { unfold Rdiv. rewrite Rmult_1_l. rewrite <- Rinv_1. apply Rinv_le_contravar; lra. }
  assert (0 <= var_of_means pars / within pars) by (apply Rmult_le_pos; [exact H|left; now apply Rinv_0_lt_compat]). lra.
Qed.
Lemma gr_bound n pars : 1 <= n -> 0 < within pars ->
  exists v, gelman_rubin n pars = Fin v /\ sqrt (1 - 1 / n) <= v /\
   (v = sqrt (1 - 1 / n) <-> forall l l', In l pars -> In l' pars -> mean l = mean l').
Proof.
  intros Hn W. eexists. split; [apply gr_formula; auto|].
  pose proof (var_nonneg (map mean pars)) as V. fold (var_of_means pars) in V.
  assert (1 / n <= 1) as H1. { unfold Rdiv. rewrite Rmult_1_l. rewrite <- Rinv_1. apply Rinv_le_contravar; lra. }
  assert (0 <= var_of_means pars / within pars) as Q by (apply Rmult_le_pos; [exact V|left; now apply Rinv_0_lt_compat]).
  split; [apply sqrt_le_1; lra|]. split.
  - intro E. apply sqrt_inj in E; try lra.
    assert (var_of_means pars = 0) as Z.
    { assert (var_of_means pars / within pars = 0) as E' by lra. unfold Rdiv in E'. apply Rmult_integral in E' as [E'|E']; [exact E'|].
      apply Rinv_neq_0_compat in E'; [easy|lra]. }
    unfold var_of_means in Z; pose proof (proj1 (var_zero _) Z) as Z1. intros. apply Z1; apply in_map; auto.
  - intro H. assert (var_of_means pars = 0) as ->.
    { apply (proj2 (var_zero (map mean pars))). intros x y Hx Hy. apply in_map_iff in Hx as [l [<- Hl]]. apply in_map_iff in Hy as [l' [<- Hl']]. auto. }
    f_equal. unfold Rdiv. lra.
Qed.

(** the statistics reported by convergence_calculate *)
Lemma calculate_gr acor th nw ndim chains old s : convergence_calculate acor th nw ndim chains old = Ok s ->
  length (st_gr s) = ndim /\
  forall j, (j < ndim)%nat -> forall c0, nth_error chains 0 = Some c0 ->
    nth_error (st_gr s) j = Some (gelman_rubin (INR (nw * length c0)) (map (fun c => flat_par nw c j) chains)).
Proof.
  unfold convergence_calculate. destruct (negb _); [discriminate|]. cbv zeta. destruct (Nat.leb _ 1); [discriminate|].
  destruct (if Nat.eqb (length chains) 1 then _ else _) as [tz minTz]. intro H.
  apply bind_ok in H as [mtz [_ H]]. apply bind_ok in H as [mgr [_ H]]. apply bind_ok in H as [maf [_ H]]. apply bind_ok in H as [mar [_ H]].
  injection H as <-. cbn [st_gr]. split; [now rewrite map_length, seq_length|].
  intros j Hj c0 Hc. rewrite nth_error_map. destruct chains as [|c r]; [discriminate|]. cbn in Hc. injection Hc as ->.
  assert (nth_error (seq 0 ndim) j = Some j) as ->.
  { rewrite (nth_error_nth' _ 0%nat) by now rewrite seq_length. now rewrite seq_nth. }
  reflexivity.
Qed.
