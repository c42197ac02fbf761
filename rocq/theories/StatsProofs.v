From Coq Require Import Reals Arith Bool Lra Lia Permutation Sorted List.
From Verif Require Import Py PyFacts PyFloat Stats.
Import ListNotations.
Open Scope R_scope.

Lemma insert_perm x l : Permutation (insert x l) (x :: l).
Proof.
  induction l as [|y l IH]; cbn; auto. destruct (rleb x y); auto. etransitivity; [apply perm_skip, IH|apply perm_swap].
Qed.
Lemma sort_perm l : Permutation (sort l) l.
Proof. induction l as [|x l IH]; cbn; auto. etransitivity; [apply insert_perm|auto]. Qed.
Definition ordered := StronglySorted Rle.
Lemma insert_ordered x l : ordered l -> ordered (insert x l).
Proof.
  induction l as [|y l IH]; cbn; intro H; [repeat constructor|]. inversion H as [|? ? H1 H2]; subst.
  destruct (rleb x y) eqn:E.
  - apply rleb_true in E. constructor; auto. constructor; auto. eapply Forall_impl; [|exact H2]. cbn. intros z Hz. lra.
  - apply rleb_false in E. constructor; [apply IH; auto|]. eapply Permutation_Forall; [apply Permutation_sym, insert_perm|]. constructor; [lra|auto].
Qed.
Lemma sort_ordered l : ordered (sort l).
Proof. induction l; cbn; [constructor|now apply insert_ordered]. Qed.
Lemma ordered_unique l : forall l', ordered l -> ordered l' -> Permutation l l' -> l = l'.
Proof.
  induction l as [|x l IH]; intros [|y l'] H H' P; auto.
  - now apply Permutation_nil in P. 
  - symmetry in P. now apply Permutation_nil in P.
  - inversion H as [|? ? H1 H2]; inversion H' as [|? ? H1' H2']; subst.
    assert (x = y) as E.
    { rewrite Forall_forall in H2, H2'.
      assert (In x (y :: l')) as I by (eapply Permutation_in; [exact P|now left]).
      assert (In y (x :: l)) as J by (eapply Permutation_in; [apply Permutation_sym; exact P|now left]).
      destruct I as [->|I]; auto. destruct J as [->|J]; auto. specialize (H2 _ J). specialize (H2' _ I). lra. }
    subst y. f_equal. apply IH; auto. eapply Permutation_cons_inv; eauto.
Qed.
Lemma sort_perm_eq l l' : Permutation l l' -> sort l = sort l'.
Proof.
  intro P. apply ordered_unique; try apply sort_ordered.
  etransitivity; [apply sort_perm|]. etransitivity; [exact P|]. symmetry. apply sort_perm.
Qed.
Lemma sort_length l : length (sort l) = length l.
Proof. apply Permutation_length, sort_perm. Qed.
Lemma ordered_map f l : (forall x y, x <= y -> f x <= f y) -> ordered l -> ordered (map f l).
Proof.
  intros M H. induction H as [|x l H IH F]; cbn; constructor; auto.
  apply Forall_map. eapply Forall_impl; [|exact F]. auto.
Qed.
Lemma sort_map f l : (forall x y, x <= y -> f x <= f y) -> sort (map f l) = map f (sort l).
Proof.
  intro M. apply ordered_unique; [apply sort_ordered|apply ordered_map; auto; apply sort_ordered|].
  etransitivity; [apply sort_perm|]. apply Permutation_map. symmetry. apply sort_perm.
Qed.
Lemma ordered_nth s : ordered s -> forall i j, (i <= j)%nat -> (j < length s)%nat -> nth i s 0 <= nth j s 0.
Proof.
  induction 1 as [|x s H IH F]; intros i j Hij Hj; cbn in Hj; [lia|].
  destruct i as [|i], j as [|j]; cbn; try lia; try lra.
  - rewrite Forall_forall in F. apply F. apply nth_In. lia.
  - apply IH; lia.
Qed.

(** index facts, every length *)
Lemma idx_low n : (1 <= n)%nat -> (159 * n / 1000 <= (n - 1) / 2)%nat.
Proof.
  intro H. destruct (Nat.eq_dec n 1) as [->|N]; [cbn; lia|].
  pose proof (Nat.mul_div_le (159 * n) 1000 ltac:(lia)). pose proof (Nat.div_mod (n - 1) 2 ltac:(lia)) as D.
  pose proof (Nat.mod_upper_bound (n - 1) 2 ltac:(lia)). lia.
Qed.
Lemma idx_high n : (1 <= n)%nat -> (n / 2 <= 841 * n / 1000)%nat /\ (841 * n / 1000 < n)%nat.
Proof.
  intro H. split.
  - apply Nat.div_le_lower_bound; [lia|]. pose proof (Nat.mul_div_le n 2 ltac:(lia)). lia.
  - apply Nat.div_lt_upper_bound; lia.
Qed.
Lemma half_facts n : (1 <= n)%nat ->
  if Nat.even n then (n / 2 - 1 = (n - 1) / 2 /\ 2 * (n / 2) = n /\ n / 2 - 1 < n / 2)%nat else ((n - 1) / 2 = n / 2 /\ 2 * (n / 2) + 1 = n)%nat.
Proof.
  intro H. destruct (Nat.even n) eqn:E.
  - apply Nat.even_spec in E. destruct E as [k ->]. rewrite (Nat.mul_comm 2 k), Nat.div_mul by lia.
    replace (k * 2 - 1)%nat with (1 + (k - 1) * 2)%nat by lia. rewrite Nat.div_add by lia. cbn [Nat.div Nat.divmod fst]. lia.
  - assert (Nat.odd n = true) as O by (unfold Nat.odd; now rewrite E). apply Nat.odd_spec in O. destruct O as [k ->].
    replace (2 * k + 1 - 1)%nat with (k * 2)%nat by lia. rewrite Nat.div_mul by lia.
    replace (2 * k + 1)%nat with (1 + k * 2)%nat by lia. rewrite Nat.div_add by lia. cbn [Nat.div Nat.divmod fst]. lia.
Qed.

Lemma nth_error_nth_R (s : list R) i : (i < length s)%nat -> nth_error s i = Some (nth i s 0).
Proof. intro H. now apply nth_error_nth'. Qed.

Lemma median_between l : l <> [] ->
  nth ((length l - 1) / 2) (sort l) 0 <= median l <= nth (length l / 2) (sort l) 0.
Proof.
  intro N. assert (1 <= length l)%nat as L by (destruct l; [easy|cbn; lia]).
  pose proof (half_facts _ L) as H. unfold median. pose proof (sort_ordered l) as O. pose proof (sort_length l) as SL.
  destruct (Nat.even (length l)).
  - destruct H as (H1 & H2 & H3). rewrite H1. assert (nth ((length l - 1) / 2) (sort l) 0 <= nth (length l / 2) (sort l) 0) by (apply ordered_nth; [auto|lia|lia]). lra.
  - destruct H as (H1 & H2). rewrite H1. lra.
Qed.

(** the plain branch in closed form *)
Lemma geterr_plain l : l <> [] ->
  geterr false l = (Ok (median l, median l - nth (159 * length l / 1000) (sort l) 0, nth (841 * length l / 1000) (sort l) 0 - median l), l).
Proof.
  intro N. assert (1 <= length l)%nat as L by (destruct l; [easy|cbn; lia]). unfold geterr. rewrite sort_length.
  pose proof (idx_low _ L). destruct (idx_high _ L) as [H1 H2].
  assert ((length l - 1) / 2 < length l)%nat by (apply Nat.div_lt_upper_bound; lia).
  rewrite !nth_error_nth_R by (rewrite sort_length; lia). reflexivity.
Qed.
Lemma geterr_angular l : geterr true l = (fst (geterr false (wrap l)), wrap l).
Proof. reflexivity. Qed.
Lemma wrap_length l : length (wrap l) = length l.
Proof. unfold wrap. destruct (rltb _ _), (rleb _ _); now rewrite ?map_length. Qed.

(** ** non-negative errors (both branches) *)
Lemma geterr_nonneg angular l : l <> [] -> exists m lo hi,
  fst (geterr angular l) = Ok (m, lo, hi) /\ 0 <= lo /\ 0 <= hi.
Proof.
  intro N. assert (forall l, l <> [] -> exists m lo hi, fst (geterr false l) = Ok (m, lo, hi) /\ 0 <= lo /\ 0 <= hi) as K.
  { clear. intros l N. rewrite geterr_plain by auto. do 3 eexists. split; [reflexivity|].
    assert (1 <= length l)%nat as L by (destruct l; [easy|cbn; lia]).
    pose proof (idx_low _ L). destruct (idx_high _ L) as [H1 H2]. pose proof (median_between l N) as B.
    pose proof (sort_ordered l) as O. pose proof (sort_length l) as SL.
    assert ((length l - 1) / 2 < length l)%nat by (apply Nat.div_lt_upper_bound; lia).
    assert (nth (159 * length l / 1000) (sort l) 0 <= nth ((length l - 1) / 2) (sort l) 0) by (apply ordered_nth; auto; lia).
    assert (nth (length l / 2) (sort l) 0 <= nth (841 * length l / 1000) (sort l) 0) by (apply ordered_nth; auto; lia). lra. }
  destruct angular; [|auto]. rewrite geterr_angular. apply K. intro E. apply N. apply (f_equal (@length R)) in E. rewrite wrap_length in E. now destruct l.
Qed.
Lemma geterr_empty angular : fst (geterr angular []) = Err IndexError.
Proof. destruct angular; [|reflexivity]. rewrite geterr_angular. cbn [fst]. pose proof (wrap_length []) as E. destruct (wrap []); [reflexivity|discriminate]. Qed.

(** ** quantiles, stated by counting *)
Definition count (f : R -> bool) (l : list R) : nat := length (filter f l).
Lemma count_perm f l l' : Permutation l l' -> count f l = count f l'.
Proof.
  unfold count. induction 1; cbn; auto; try (destruct (f x); cbn; lia); try lia.
  destruct (f x), (f y); reflexivity.
Qed.
Lemma filter_all (f : R -> bool) l : (forall x, In x l -> f x = true) -> filter f l = l.
Proof. induction l as [|x l IH]; intro H; cbn; auto. rewrite (H x) by now left. f_equal. apply IH. intros; apply H; now right. Qed.
Lemma filter_none (f : R -> bool) l : (forall x, In x l -> f x = false) -> filter f l = [].
Proof. induction l as [|x l IH]; intro H; cbn; auto. rewrite (H x) by now left. apply IH. intros; apply H; now right. Qed.
Lemma filter_le (f : R -> bool) l : (length (filter f l) <= length l)%nat.
Proof. induction l as [|x l IH]; cbn; auto. destruct (f x); cbn; lia. Qed.
Lemma In_nth_R (x : R) l : In x l -> exists i, (i < length l)%nat /\ nth i l 0 = x.
Proof. apply In_nth. Qed.

Lemma count_below s v i : ordered s -> (i <= length s)%nat -> (forall j, (i <= j < length s)%nat -> v <= nth j s 0) ->
  (count (fun x => rltb x v) s <= i)%nat.
Proof.
  intros O L H. unfold count. rewrite <- (firstn_skipn i s) at 1. rewrite filter_app, app_length.
  rewrite (filter_none _ (skipn i s)).
  - cbn. pose proof (filter_le (fun x => rltb x v) (firstn i s)). pose proof (firstn_le_length i s). cbn in *. lia.
  - intros x Hx. apply rltb_false. destruct (In_nth_R _ _ Hx) as (j & Hj & <-). rewrite skipn_length in Hj.
    replace (nth j (skipn i s) 0) with (nth (i + j) s 0); [apply H; lia|].
    rewrite <- (firstn_skipn i s) at 1. rewrite app_nth2; rewrite firstn_length_le by lia; [f_equal; lia|lia].
Qed.
Lemma count_upto s v i : ordered s -> (i < length s)%nat -> nth i s 0 <= v -> (i < count (fun x => rleb x v) s)%nat.
Proof.
  intros O L H. unfold count. rewrite <- (firstn_skipn (S i) s) at 1. rewrite filter_app, app_length.
  rewrite (filter_all _ (firstn (S i) s)); [rewrite firstn_length_le by lia; lia|].
  intros x Hx. apply rleb_true. destruct (In_nth_R _ _ Hx) as (j & Hj & <-). rewrite firstn_length_le in Hj by lia.
  apply Rle_trans with (nth i s 0); auto.
  replace (nth j (firstn (S i) s) 0) with (nth j s 0); [apply ordered_nth; auto; lia|].
  rewrite <- (firstn_skipn (S i) s) at 1. rewrite app_nth1; [auto|rewrite firstn_length_le; lia].
Qed.
Lemma count_split f g l : (forall x, f x = negb (g x)) -> (count f l + count g l = length l)%nat.
Proof. intro H. unfold count. induction l as [|x l IH]; cbn; auto. rewrite H. destruct (g x); cbn; lia. Qed.

(** [q] is a sample, with at most k samples below it and more than k samples not above it *)
Definition is_rank (l : list R) (k : nat) (q : R) : Prop :=
  In q l /\ (count (fun x => rltb x q) l <= k)%nat /\ (k < count (fun x => rleb x q) l)%nat.
(** [m] has at most half the samples on either side, and is the average of two samples *)
Definition is_median (l : list R) (m : R) : Prop :=
  (2 * count (fun x => rltb x m) l <= length l)%nat /\ (2 * count (fun x => rltb m x) l <= length l)%nat /\
  exists a b, In a l /\ In b l /\ m = (a + b) / 2 /\ is_rank l ((length l - 1) / 2) a /\ is_rank l (length l / 2) b.

Lemma nth_rank l k : (k < length l)%nat -> is_rank l k (nth k (sort l) 0).
Proof.
  intro L. pose proof (sort_ordered l) as O. pose proof (sort_length l) as SL. repeat split.
  - eapply Permutation_in; [apply sort_perm|]. apply nth_In. lia.
  - rewrite <- (count_perm _ _ _ (sort_perm l)). apply count_below; [auto|lia|]. intros j Hj. apply ordered_nth; auto; lia.
  - rewrite <- (count_perm _ _ _ (sort_perm l)). apply count_upto; [auto|lia|lra].
Qed.
Lemma is_rank_unique l k q q' : is_rank l k q -> is_rank l k q' -> q = q'.
Proof.
  assert (forall a b, a < b -> (count (fun x => rleb x a) l <= count (fun x => rltb x b) l)%nat) as M.
  { intros a b H. unfold count. induction l as [|x r IH]; cbn; auto. destruct (rleb x a) eqn:E1, (rltb x b) eqn:E2; cbn; try lia.
    apply rleb_true in E1. apply rltb_false in E2. lra. }
  intros (_ & A1 & A2) (_ & B1 & B2). destruct (Rtotal_order q q') as [L|[L|L]]; auto; specialize (M _ _ L); lia.
Qed.

Lemma geterr_quantiles l : l <> [] -> exists m lo hi, geterr false l = (Ok (m, lo, hi), l) /\
  is_median l m /\ is_rank l (159 * length l / 1000) (m - lo) /\ is_rank l (841 * length l / 1000) (m + hi).
Proof.
  intro N. rewrite geterr_plain by auto. do 3 eexists. split; [reflexivity|].
  assert (1 <= length l)%nat as L by (destruct l; [easy|cbn; lia]).
  pose proof (idx_low _ L). destruct (idx_high _ L) as [H1 H2]. pose proof (median_between l N) as B.
  pose proof (sort_ordered l) as O. pose proof (sort_length l) as SL. pose proof (half_facts _ L) as HF.
  assert ((length l - 1) / 2 < length l)%nat as HL by (apply Nat.div_lt_upper_bound; lia).
  assert (length l / 2 < length l)%nat as HL2 by (apply Nat.div_lt_upper_bound; lia).
  split; [|split].
  - set (a := nth ((length l - 1) / 2) (sort l) 0) in *. set (b := nth (length l / 2) (sort l) 0) in *.
    split; [|split].
    + rewrite <- (count_perm _ _ _ (sort_perm l)).
      assert (count (fun x => rltb x (median l)) (sort l) <= length l / 2)%nat as K.
      { apply count_below; [auto|lia|]. intros j Hj. apply Rle_trans with b; [lra|]. apply ordered_nth; auto; lia. }
      pose proof (Nat.mul_div_le (length l) 2 ltac:(lia)). lia.
    + rewrite <- (count_perm _ _ _ (sort_perm l)).
      assert ((length l - 1) / 2 < count (fun x => rleb x (median l)) (sort l))%nat as K by (apply count_upto; [auto|lia|fold a; lra]).
      assert (count (fun x => rltb (median l) x) (sort l) + count (fun x => rleb x (median l)) (sort l) = length (sort l))%nat as C.
      { apply count_split. intro x. destruct (rleb x (median l)) eqn:E; cbn; [apply rltb_false; now apply rleb_true in E|apply rltb_true; now apply rleb_false in E]. }
      rewrite SL in C. destruct (Nat.even (length l)); lia.
    + exists a, b. pose proof (nth_rank l _ HL) as RA. pose proof (nth_rank l _ HL2) as RB. fold a in RA. fold b in RB.
      split; [apply RA|]. split; [apply RB|]. split; [|auto].
      unfold median. fold b. destruct (Nat.even (length l)).
      * destruct HF as (E & _ & _). rewrite E. reflexivity.
      * destruct HF as (E & _). unfold a, b. rewrite E. lra.
  - replace (median l - (median l - nth (159 * length l / 1000) (sort l) 0)) with (nth (159 * length l / 1000) (sort l) 0) by ring. apply nth_rank. lia.
  - replace (median l + (nth (841 * length l / 1000) (sort l) 0 - median l)) with (nth (841 * length l / 1000) (sort l) 0) by ring. apply nth_rank. lia.
Qed.

(** ** equivariance *)
Lemma geterr_affine k c l m lo hi : 0 < k -> geterr false l = (Ok (m, lo, hi), l) ->
  geterr false (map (fun x => k * x + c) l) = (Ok (k * m + c, k * lo, k * hi), map (fun x => k * x + c) l).
Proof.
  intros Hk H. set (f := fun x => k * x + c).
  assert (l <> []) as N by (intros ->; discriminate).
  assert (1 <= length l)%nat as L by (destruct l; [easy|cbn; lia]).
  assert (forall x y, x <= y -> f x <= f y) as M by (intros; unfold f; nra).
  rewrite geterr_plain in H by auto. rewrite geterr_plain by (destruct l; easy).
  assert (forall i, (i < length l)%nat -> nth i (sort (map f l)) 0 = f (nth i (sort l) 0)) as Nt.
  { intros i Hi. rewrite sort_map by auto. rewrite (nth_indep _ 0 (f 0)) by (rewrite map_length, sort_length; auto). apply map_nth. }
  rewrite map_length. pose proof (idx_low _ L). destruct (idx_high _ L) as [H1 H2].
  assert ((length l - 1) / 2 < length l)%nat as HL by (apply Nat.div_lt_upper_bound; lia).
  assert (median (map f l) = f (median l)) as Em.
  { unfold median. rewrite map_length. pose proof (half_facts _ L) as HF. destruct (Nat.even (length l)); rewrite !Nt by lia; [unfold f; field|reflexivity]. }
  rewrite Em, !Nt by lia. clear - H. generalize dependent (159 * length l / 1000)%nat. intros i1 H. generalize dependent (841 * length l / 1000)%nat. intros i2 H.
  injection H as <- <- <-. f_equal. f_equal. f_equal; [f_equal|]; unfold f; ring.
Qed.

(** ** order of the samples *)
Lemma filter_perm_len f (l l' : list R) : Permutation l l' -> length (filter f l) = length (filter f l').
Proof. apply count_perm. Qed.
Lemma mode_perm l l' : Permutation l l' -> mode_edge l = mode_edge l'.
Proof.
  intro P. assert (hist_range l = hist_range l') as E.
  { unfold hist_range, vmin, vmax. now rewrite (sort_perm_eq l l' P), (Permutation_length P). }
  unfold mode_edge, counts. rewrite E. f_equal. f_equal. apply map_ext. intro i. now apply filter_perm_len.
Qed.
Lemma wrap_perm l l' : Permutation l l' -> Permutation (wrap l) (wrap l').
Proof.
  intro P. unfold wrap. rewrite (mode_perm l l' P). destruct (rltb _ _), (rleb _ _); repeat apply Permutation_map; auto.
Qed.
Lemma geterr_perm angular l l' : Permutation l l' -> fst (geterr angular l) = fst (geterr angular l').
Proof.
  assert (forall l l', Permutation l l' -> fst (geterr false l) = fst (geterr false l')) as K.
  { clear. intros l l' P. unfold geterr. unfold median. now rewrite (sort_perm_eq l l' P), (Permutation_length P). }
  intro P. destruct angular; auto. rewrite !geterr_angular. cbn [fst]. apply K, wrap_perm; auto.
Qed.

(** ** the caller's array *)
Lemma geterr_keeps l : snd (geterr false l) = l.
Proof. reflexivity. Qed.
(** the angular branch only moves samples by whole turns *)
Lemma wrap_turns l : Forall2 (fun x y => y = x \/ y = x + 2 * PI \/ y = x - 2 * PI) l (wrap l).
Proof.
  unfold wrap. pose proof PI_RGT_0.
  destruct (rltb (PI / 2) (mode_edge l)) eqn:E1, (rleb (mode_edge l) (- (PI / 2))) eqn:E2.
  - apply rltb_true in E1. apply rleb_true in E2. lra.
  - clear E1 E2. induction l as [|x l IH]; cbn; constructor; auto. destruct (rltb x 0); auto.
  - clear E1 E2. induction l as [|x l IH]; cbn; constructor; auto. destruct (rleb 0 x); auto.
  - clear. induction l; constructor; auto.
Qed.
(** when the mode lies beyond a right angle and a sample is negative the caller's array is changed *)
Lemma angular_mutates l x : PI / 2 < mode_edge l -> In x l -> x < 0 -> snd (geterr true l) <> l.
Proof.
  intros H I Hx. rewrite geterr_angular. cbn [snd]. unfold wrap. pose proof PI_RGT_0.
  rewrite (proj2 (rltb_true _ _) H), (proj2 (rleb_false _ _)) by lra. clear H. intro E.
  assert (In x (map (fun x => if rltb x 0 then x + 2 * PI else x) l)) as J by (now rewrite E).
  induction l as [|y l IH]; [easy|]. cbn in E. inversion E as [[E1 E2]]. destruct I as [->|I].
  - rewrite (proj2 (rltb_true _ _) Hx) in E1. lra.
  - apply IH; auto. now rewrite E2.
Qed.

(** a witness: three samples *)
Lemma argmax_last l x : (forall y, In y l -> (y < x)%nat) -> argmax (l ++ [x]) = length l.
Proof.
  induction l as [|y l IH]; intro H; cbn; auto.
  assert (forallb (fun z => Nat.leb z y) (l ++ [x]) = false) as ->.
  { apply not_true_is_false. intro F. rewrite forallb_forall in F. specialize (F x ltac:(apply in_or_app; right; now left)).
    apply Nat.leb_le in F. specialize (H y (or_introl eq_refl)). lia. }
  f_equal. apply IH. intros; apply H; now right.
Qed.
Definition three := [-1; 3; 3].
Lemma three_sort : sort three = three.
Proof.
  unfold three. cbn [sort insert]. rewrite (proj2 (rleb_true 3 3)) by lra. cbn [insert]. rewrite (proj2 (rleb_true (-1) 3)) by lra. reflexivity.
Qed.
Lemma three_range : hist_range three = (-1, 3).
Proof. unfold hist_range, vmin, vmax. rewrite three_sort. cbn [three nth length Nat.sub]. rewrite (proj2 (reqb_false (-1) 3)); [reflexivity|lra]. Qed.
Lemma three_bin3 i : (i < 49)%nat -> in_bin (-1, 3) i 3 = false.
Proof.
  intro H. unfold in_bin. rewrite (proj2 (Nat.eqb_neq i 49)) by lia. rewrite (proj2 (rltb_false 3 (edge (-1, 3) (S i)))); [apply andb_false_r|].
  unfold edge. cbn [fst snd]. assert (INR (S i) <= 49) by (replace 49 with (INR 49) by (cbn; ring); apply le_INR; lia). lra.
Qed.
Lemma three_mode : mode_edge three = 73 / 25.
Proof.
  unfold mode_edge, counts. rewrite three_range.
  replace (seq 0 50) with (seq 0 49 ++ [49%nat]) by reflexivity. rewrite map_app. cbn [map].
  rewrite argmax_last.
  - rewrite map_length, seq_length. unfold edge. cbn [fst snd]. replace (INR 49) with 49 by (cbn; ring). lra.
  - intros y Hy. apply in_map_iff in Hy. destruct Hy as (i & <- & Hi). apply in_seq in Hi.
    unfold three. cbn [filter]. rewrite !(three_bin3 i) by lia.
    assert (in_bin (-1, 3) 49 3 = true) as ->.
    { unfold in_bin, edge. cbn [Nat.eqb fst snd]. replace (INR 49) with 49 by (cbn; ring). replace (INR 50) with 50 by (cbn; ring).
      rewrite (proj2 (rleb_true _ _)), (proj2 (rleb_true _ _)); [reflexivity|lra|lra]. }
    assert (in_bin (-1, 3) 49 (-1) = false) as ->.
    { unfold in_bin, edge. cbn [Nat.eqb fst snd]. replace (INR 49) with 49 by (cbn; ring). rewrite (proj2 (rleb_false _ _)); [reflexivity|lra]. }
    destruct (in_bin (-1, 3) i (-1)); cbn; lia.
Qed.
Lemma geterr_changes_caller : exists l, l <> [] /\ snd (geterr true l) <> l.
Proof.
  exists three. split; [easy|]. apply (angular_mutates three (-1)); [|now left|lra].
  rewrite three_mode. pose proof PI_4. lra.
Qed.
