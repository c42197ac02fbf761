(** Positive semi-definite kernels by explicit features. *)
From Coq Require Import Reals List Arith Lra Lia Psatz.
From Coquelicot Require Import Coquelicot.
From Verif Require Import Py PyFloat PyFloatFacts GpSpec.
Import ListNotations.
Open Scope R_scope.

(** ** Sums *)

Lemma Sum_ext n f g : (forall i, (i < n)%nat -> f i = g i) -> Sum n f = Sum n g.
Proof.
  intro H. unfold Sum. f_equal. apply map_ext_in. intros i Hi. apply in_seq in Hi. apply H. lia.
Qed.
Lemma Sum_S n f : Sum (S n) f = Sum n f + f n.
Proof.
  unfold Sum. rewrite seq_S, map_app, rsum_app. cbn. lra.
Qed.
Lemma Sum_0 f : Sum 0 f = 0. Proof. reflexivity. Qed.
Lemma Sum_plus n f g : Sum n (fun i => f i + g i) = Sum n f + Sum n g.
Proof. induction n; rewrite ?Sum_S, ?Sum_0; lra. Qed.
Lemma Sum_scal n a f : Sum n (fun i => a * f i) = a * Sum n f.
Proof. induction n; rewrite ?Sum_S, ?Sum_0; lra. Qed.
Lemma Sum_le n f g : (forall i, (i < n)%nat -> f i <= g i) -> Sum n f <= Sum n g.
Proof.
  induction n; intro H; rewrite ?Sum_S, ?Sum_0; [lra|].
  assert (Sum n f <= Sum n g) by (apply IHn; intros; apply H; lia).
  specialize (H n ltac:(lia)). lra.
Qed.
Lemma Sum_nonneg n f : (forall i, (i < n)%nat -> 0 <= f i) -> 0 <= Sum n f.
Proof.
  intro H. replace 0 with (Sum n (fun _ => 0)). now apply Sum_le.
  clear. induction n; rewrite ?Sum_S, ?Sum_0; lra.
Qed.
Lemma Sum_pos n f k : (forall i, (i < n)%nat -> 0 <= f i) -> (k < n)%nat -> 0 < f k -> 0 < Sum n f.
Proof.
  induction n; intros H Hk Hp; [lia|]. rewrite Sum_S.
  assert (0 <= Sum n f) by (apply Sum_nonneg; intros; apply H; lia).
  destruct (Nat.eq_dec k n) as [->|E]; [lra|].
  assert (0 < Sum n f) by (apply IHn; auto; try lia; intros; apply H; lia).
  specialize (H n ltac:(lia)). lra.
Qed.
Lemma Sum_const0 n : Sum n (fun _ => 0) = 0.
Proof. induction n; rewrite ?Sum_S, ?Sum_0; lra. Qed.
Lemma Sum_delta n i f : (i < n)%nat -> Sum n (fun j => if Nat.eqb i j then f j else 0) = f i.
Proof.
  induction n; intro H; [lia|]. rewrite Sum_S.
  destruct (Nat.eq_dec i n) as [->|E].
  - rewrite Nat.eqb_refl. rewrite (Sum_ext n _ (fun _ => 0)), Sum_const0; [lra|].
    intros j Hj. destruct (Nat.eqb_spec n j); [lia|auto].
  - rewrite IHn by lia. destruct (Nat.eqb_spec i n); [lia|lra].
Qed.
Lemma Sum_abs n f : Rabs (Sum n f) <= Sum n (fun i => Rabs (f i)).
Proof.
  induction n; rewrite ?Sum_S, ?Sum_0; [rewrite Rabs_R0; lra|].
  eapply Rle_trans; [apply Rabs_triang|lra].
Qed.
Lemma Sum_rsum {A} n (l : list A) (f : nat -> A -> R) :
  Sum n (fun i => rsum (map (f i) l)) = rsum (map (fun a => Sum n (fun i => f i a)) l).
Proof.
  induction n.
  - rewrite Sum_0. symmetry. rewrite (map_ext _ (fun _ => 0)) by (intro; apply Sum_0).
    clear. induction l as [|x l IH]; [reflexivity|]. cbn [map]. rewrite rsum_cons, IH. lra.
  - rewrite Sum_S, IHn, <- rsum_map_plus. apply rsum_map_ext. intros a _. now rewrite Sum_S.
Qed.

(** ** Feature kernels *)

Definition feats (Phi : list (R -> R)) (x y : R) : R := rsum (map (fun p => p x * p y) Phi).
Definition feat (k : R -> R -> R) : Prop :=
  exists Phi : nat -> list (R -> R), forall x y, is_lim_seq (fun n => feats (Phi n) x y) (k x y).

Lemma is_lim_seq_Sum n (u : nat -> nat -> R) (l : nat -> R) :
  (forall i, (i < n)%nat -> is_lim_seq (fun m => u m i) (l i)) ->
  is_lim_seq (fun m => Sum n (u m)) (Sum n l).
Proof.
  induction n; intro H.
  - cbn. apply is_lim_seq_const.
  - apply (is_lim_seq_ext (fun m => Sum n (u m) + u m n)); [intro; now rewrite Sum_S|].
    rewrite Sum_S. apply is_lim_seq_plus'; auto.
Qed.

Lemma feats_square Phi n c (x : nat -> R) :
  quad n (fun i j => feats Phi (x i) (x j)) c = rsum (map (fun p => (Sum n (fun i => c i * p (x i))) ^ 2) Phi).
Proof.
  unfold quad, feats.
  rewrite (Sum_ext n _ (fun i => rsum (map (fun p => (c i * p (x i)) * Sum n (fun j => c j * p (x j))) Phi))).
  - rewrite Sum_rsum. apply rsum_map_ext. intros p _.
    rewrite (Sum_ext n _ (fun i => Sum n (fun j => c j * p (x j)) * (c i * p (x i)))) by (intros; ring).
    rewrite Sum_scal. ring.
  - intros i _.
    rewrite (Sum_ext n _ (fun j => rsum (map (fun p => c i * c j * (p (x i) * p (x j))) Phi)))
      by (intros; rewrite rsum_map_mult; reflexivity).
    rewrite Sum_rsum. apply rsum_map_ext. intros p _.
    rewrite <- Sum_scal. apply Sum_ext. intros; ring.
Qed.

Theorem feat_psd k n (x : nat -> R) : feat k -> psd n (fun i j => k (x i) (x j)).
Proof.
  intros [Phi H] c.
  assert (is_lim_seq (fun m => quad n (fun i j => feats (Phi m) (x i) (x j)) c) (quad n (fun i j => k (x i) (x j)) c)) as L.
  { unfold quad. apply is_lim_seq_Sum. intros i _. apply is_lim_seq_Sum. intros j _.
    apply is_lim_seq_mult'; [apply is_lim_seq_const|apply H]. }
  assert (Rbar_le 0 (quad n (fun i j => k (x i) (x j)) c)) as Q; [|exact Q].
  eapply (is_lim_seq_le (fun _ => 0)); [|apply is_lim_seq_const|exact L].
  intro m. cbv beta. rewrite (feats_square (Phi m) n c x). apply rsum_nonneg. intros y Hy. apply in_map_iff in Hy as [p [<- _]]. nra.
Qed.

Lemma feats_prod P Q x y :
  feats (flat_map (fun p => map (fun q z => p z * q z) Q) P) x y = feats P x y * feats Q x y.
Proof.
  unfold feats. induction P as [|p P IH]; cbn [flat_map map].
  - rewrite ?rsum_cons. cbn. ring.
  - rewrite map_app, rsum_app, rsum_cons, IH, map_map.
    rewrite (rsum_map_ext _ (fun q => (p x * p y) * (q x * q y))) by (intros; ring).
    rewrite rsum_map_mult. ring.
Qed.
Lemma feat_mult k1 k2 : feat k1 -> feat k2 -> feat (fun x y => k1 x y * k2 x y).
Proof.
  intros [P HP] [Q HQ]. exists (fun n => flat_map (fun p => map (fun q z => p z * q z) (Q n)) (P n)). intros x y.
  apply (is_lim_seq_ext (fun n => feats (P n) x y * feats (Q n) x y)); [intro; symmetry; apply feats_prod|].
  apply is_lim_seq_mult'; auto.
Qed.
Lemma feat_rank1 f : feat (fun x y => f x * f y).
Proof.
  exists (fun _ => [f]). intros x y. apply (is_lim_seq_ext (fun _ => f x * f y)); [|apply is_lim_seq_const].
  intro. unfold feats. cbn. ring.
Qed.
Lemma feat_const a : 0 <= a -> feat (fun _ _ => a).
Proof.
  intro H. exists (fun _ => [fun _ => sqrt a]). intros x y.
  apply (is_lim_seq_ext (fun _ => a)); [|apply is_lim_seq_const].
  intro. unfold feats. cbn. rewrite sqrt_sqrt by auto. ring.
Qed.
Lemma feat_ext k1 k2 : (forall x y, k1 x y = k2 x y) -> feat k1 -> feat k2.
Proof. intros E [P H]. exists P. intros. rewrite <- E. apply H. Qed.

Lemma feat_exp f : feat (fun x y => exp (f x * f y)).
Proof.
  exists (fun n => map (fun k z => f z ^ k / sqrt (INR (fact k))) (seq 0 (S n))). intros x y.
  pose proof (is_exp_Reals (f x * f y)) as H. unfold is_pseries, is_series in H.
  apply (is_lim_seq_ext (fun n => sum_n (fun k => (f x * f y) ^ k * / INR (fact k)) n)).
  - intro n. unfold feats. rewrite map_map.
    assert (forall k, (f x ^ k / sqrt (INR (fact k))) * (f y ^ k / sqrt (INR (fact k))) = (f x * f y) ^ k * / INR (fact k)) as E.
    { intro k. rewrite Rpow_mult_distr. assert (0 < INR (fact k)) as F by apply INR_fact_lt_0.
      pose proof (sqrt_lt_R0 _ F). rewrite <- (sqrt_sqrt (INR (fact k))) at 3 by lra. field. lra. }
    rewrite (rsum_map_ext _ (fun k => (f x * f y) ^ k * / INR (fact k))) by (intros; apply E).
    induction n.
    + rewrite sum_O. cbn. lra.
    + rewrite sum_Sn, IHn, (seq_S (S n)), map_app, rsum_app. cbn. unfold plus; cbn. lra.
  - apply (is_lim_seq_ext (sum_n (fun k => scal (pow_n (f x * f y) k) (/ INR (fact k))))); [|exact H].
    intro n. apply sum_n_ext. intro k. rewrite pow_n_pow. reflexivity.
Qed.

(** ** The three kernels *)

Definition sq_k (len x y : R) : R := exp (- (x - y) ^ 2 / len ^ 2).
Definition per_k (len per x y : R) : R := exp (- sin (PI * (x - y) / per) ^ 2 / (2 * len ^ 2)).

Lemma sq_feat len : len <> 0 -> feat (sq_k len).
Proof.
  intro Hl.
  apply (feat_ext (fun x y => (exp (- x ^ 2 / len ^ 2) * exp (- y ^ 2 / len ^ 2)) * exp ((sqrt 2 * x / len) * (sqrt 2 * y / len)))).
  - intros. unfold sq_k. rewrite <- !exp_plus. f_equal.
    replace (sqrt 2 * x / len * (sqrt 2 * y / len)) with ((sqrt 2 * sqrt 2) * (x * y) / len ^ 2) by (field; auto).
    rewrite sqrt_sqrt by lra. field. auto.
  - apply feat_mult; [apply (feat_rank1 (fun x => exp (- x ^ 2 / len ^ 2)))|apply (feat_exp (fun x => sqrt 2 * x / len))].
Qed.

Lemma per_feat len per : len <> 0 -> per <> 0 -> feat (per_k len per).
Proof.
  intros Hl Hp.
  set (w := 2 * PI / per). set (s := / (2 * Rabs len)).
  assert (Rabs len <> 0) as Ha by (now apply Rabs_no_R0).
  assert (s * s = / (4 * len ^ 2)) as Hs.
  { unfold s. replace (len ^ 2) with (Rabs len * Rabs len); [field; auto|]. rewrite <- Rabs_mult, Rabs_pos_eq; nra. }
  apply (feat_ext (fun x y => exp (- / (4 * len ^ 2)) * (exp ((s * cos (w * x)) * (s * cos (w * y))) * exp ((s * sin (w * x)) * (s * sin (w * y)))))).
  - intros. unfold per_k. rewrite <- !exp_plus. f_equal.
    assert (sin (PI * (x - y) / per) ^ 2 = (1 - cos (w * x - w * y)) / 2) as E.
    { replace (w * x - w * y) with (2 * (PI * (x - y) / per)) by (unfold w; field; auto).
      rewrite cos_2a_sin. field. }
    rewrite E, cos_minus.
    replace (s * cos (w * x) * (s * cos (w * y))) with ((s * s) * (cos (w * x) * cos (w * y))) by ring.
    replace (s * sin (w * x) * (s * sin (w * y))) with ((s * s) * (sin (w * x) * sin (w * y))) by ring.
    rewrite Hs. field. auto.
  - apply feat_mult; [apply feat_const; left; apply exp_pos|].
    apply feat_mult; [apply (feat_exp (fun x => s * cos (w * x)))|apply (feat_exp (fun x => s * sin (w * x)))].
Qed.

(** ** Adding squared errors on the diagonal *)

Lemma quad_diag n a (e : nat -> R) c :
  quad n (fun i j => a i j + if Nat.eqb i j then e i ^ 2 else 0) c = quad n a c + Sum n (fun i => c i ^ 2 * e i ^ 2).
Proof.
  unfold quad. rewrite <- Sum_plus. apply Sum_ext. intros i Hi.
  rewrite (Sum_ext n _ (fun j => c i * c j * a i j + if Nat.eqb i j then c i * c j * e i ^ 2 else 0)).
  - rewrite Sum_plus. f_equal. rewrite (Sum_delta n i (fun j => c i * c j * e i ^ 2)) by auto. ring.
  - intros j _. destruct (Nat.eqb i j); ring.
Qed.
Lemma psd_diag n a e : psd n a -> psd n (fun i j => a i j + if Nat.eqb i j then e i ^ 2 else 0).
Proof.
  intros H c. rewrite quad_diag. pose proof (H c).
  assert (0 <= Sum n (fun i => c i ^ 2 * e i ^ 2)); [|lra]. apply Sum_nonneg. intros. nra.
Qed.
Lemma pd_diag n a e :
  psd n a -> (forall i, (i < n)%nat -> e i <> 0) -> pd n (fun i j => a i j + if Nat.eqb i j then e i ^ 2 else 0).
Proof.
  intros H He c [i [Hi Hc]]. rewrite quad_diag. pose proof (H c).
  assert (0 < Sum n (fun i => c i ^ 2 * e i ^ 2)); [|lra]. apply (Sum_pos n _ i); auto; [intros; nra|].
  specialize (He i Hi). apply Rmult_lt_0_compat; apply pow2_gt_0; auto.
Qed.

Lemma psd_scal n a b : 0 <= b -> psd n a -> psd n (fun i j => b * a i j).
Proof.
  intros Hb H c. unfold quad.
  rewrite (Sum_ext n _ (fun i => b * Sum n (fun j => c i * c j * a i j))).
  - rewrite Sum_scal. apply Rmult_le_pos; auto. apply H.
  - intros i _. rewrite <- Sum_scal. apply Sum_ext. intros; ring.
Qed.
Lemma quad_ext n a b c : (forall i j, (i < n)%nat -> (j < n)%nat -> a i j = b i j) -> quad n a c = quad n b c.
Proof. intro H. unfold quad. apply Sum_ext. intros i Hi. apply Sum_ext. intros j Hj. now rewrite H. Qed.
Lemma psd_ext n a b : (forall i j, (i < n)%nat -> (j < n)%nat -> a i j = b i j) -> psd n a -> psd n b.
Proof. intros H P c. rewrite <- (quad_ext n a b c H). apply P. Qed.
Lemma pd_ext n a b : (forall i j, (i < n)%nat -> (j < n)%nat -> a i j = b i j) -> pd n a -> pd n b.
Proof. intros H P c Hc. rewrite <- (quad_ext n a b c H). now apply P. Qed.

(** ** A perturbation bounded entrywise *)

Lemma cauchy_ones n (f : nat -> R) : (Sum n f) ^ 2 <= INR n * Sum n (fun i => f i ^ 2).
Proof.
  induction n.
  - rewrite !Sum_0. cbn. lra.
  - rewrite !Sum_S, S_INR. set (s := Sum n f) in *. set (t := Sum n (fun i => f i ^ 2)) in *. set (x := f n).
    assert (0 <= t) by (apply Sum_nonneg; intros; apply pow2_ge_0).
    assert (0 <= INR n) by apply pos_INR.
    assert (2 * s * x <= t + INR n * x ^ 2); [|nra].
    destruct (Req_dec (INR n) 0) as [Z|Z].
    + assert (n = 0%nat) by (apply INR_eq; rewrite Z; reflexivity). subst n. unfold s, t. rewrite !Sum_0. cbn. nra.
    + assert (0 < INR n) by lra. apply (Rmult_le_reg_l (INR n)); auto.
      pose proof (pow2_ge_0 (s - INR n * x)) as Q.
      replace ((s - INR n * x) ^ 2) with (s ^ 2 - INR n * (2 * s * x) + INR n * (INR n * x ^ 2)) in Q by ring. lra.
Qed.
Lemma quad_bound n d c b : 0 <= b -> (forall i j, (i < n)%nat -> (j < n)%nat -> Rabs (d i j) <= b) ->
  Rabs (quad n d c) <= b * (INR n * Sum n (fun i => c i ^ 2)).
Proof.
  intros Hb H. eapply Rle_trans; [|apply Rmult_le_compat_l; [auto|]].
  2:{ eapply Rle_trans; [apply (cauchy_ones n (fun i => Rabs (c i)))|]. right. f_equal. apply Sum_ext. intros.
      rewrite pow2_abs. auto. }
  unfold quad. eapply Rle_trans; [apply Sum_abs|].
  eapply Rle_trans; [apply (Sum_le n _ (fun i => Rabs (c i) * (b * Sum n (fun j => Rabs (c j)))))|].
  - intros i Hi. eapply Rle_trans; [apply Sum_abs|].
    replace (Rabs (c i) * (b * Sum n (fun j => Rabs (c j)))) with ((Rabs (c i) * b) * Sum n (fun j => Rabs (c j))) by ring.
    rewrite <- Sum_scal. apply Sum_le. intros j Hj. rewrite !Rabs_mult.
    pose proof (Rabs_pos (c i)). pose proof (Rabs_pos (c j)). specialize (H i j Hi Hj).
    replace (Rabs (c i) * b * Rabs (c j)) with (Rabs (c i) * Rabs (c j) * b) by ring.
    apply Rmult_le_compat_l; auto. now apply Rmult_le_pos.
  - rewrite (Sum_ext n _ (fun i => (b * Sum n (fun j => Rabs (c j))) * Rabs (c i))) by (intros; ring).
    rewrite Sum_scal. right. ring.
Qed.

(** positive definite when the errors dominate the perturbation *)
Lemma pd_perturbed n a d e b :
  psd n a -> 0 <= b -> (forall i j, (i < n)%nat -> (j < n)%nat -> Rabs (d i j) <= b) ->
  (forall i, (i < n)%nat -> b * INR n < e i ^ 2) ->
  pd n (fun i j => a i j + d i j + if Nat.eqb i j then e i ^ 2 else 0).
Proof.
  intros Ha Hb Hd He c [i [Hi Hc]]. rewrite quad_diag.
  assert (quad n (fun i j => a i j + d i j) c = quad n a c + quad n d c) as ->.
  { unfold quad. rewrite <- Sum_plus. apply Sum_ext. intros. rewrite <- Sum_plus. apply Sum_ext. intros. ring. }
  pose proof (Ha c). pose proof (quad_bound n d c b Hb Hd) as Q. apply Rabs_le_between in Q.
  assert (b * (INR n * Sum n (fun i => c i ^ 2)) < Sum n (fun i => c i ^ 2 * e i ^ 2)); [|lra].
  assert (0 < Sum n (fun i => c i ^ 2 * (e i ^ 2 - b * INR n))) as P.
  { apply (Sum_pos n _ i); auto.
    - intros j Hj. specialize (He j Hj). apply Rmult_le_pos; [nra|lra].
    - specialize (He i Hi). apply Rmult_lt_0_compat; [now apply pow2_gt_0|lra]. }
  rewrite (Sum_ext n _ (fun i => c i ^ 2 * e i ^ 2 + (- (b * INR n)) * c i ^ 2)) in P by (intros; ring).
  rewrite Sum_plus, Sum_scal in P. nra.
Qed.
