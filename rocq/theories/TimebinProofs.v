From Coq Require Import Reals String Arith Bool Lra Lia Permutation Sorted List.
From Verif Require Import Py PyFacts PyFloat PyFloatFacts Timebin TimebinSpec.
Import ListNotations.
Open Scope R_scope.

Lemma take_map {A B} (f : A -> B) l order : take (map f l) order = map f (take l order).
Proof.
  unfold take. induction order as [|i o IH]; cbn; auto. rewrite IH, nth_error_map, map_app.
  now destruct (nth_error l i).
Qed.
Lemma take_seq {A} (l : list A) : forall pre, take (pre ++ l) (seq (length pre) (length l)) = l.
Proof.
  induction l as [|x l IH]; intro pre; cbn; auto.
  unfold take in *. cbn. rewrite nth_error_app2, Nat.sub_diag by lia. cbn. f_equal.
  specialize (IH (pre ++ [x])). rewrite app_length, <- app_assoc in IH. cbn in IH. rewrite Nat.add_1_r in IH. exact IH.
Qed.
Lemma take_perm {A} (l : list A) order : Permutation (seq 0 (length l)) order -> Permutation l (take l order).
Proof.
  intro H. rewrite <- (take_seq l []) at 1. cbn [length app]. unfold take. now apply Permutation_flat_map.
Qed.

(** ** One bin *)
Lemma inv_sq x : x <> 0 -> (1 / x) ^ 2 = / x ^ 2.
Proof. intro H. field; auto. Qed.

Definition w (p : pt) : R := / pt_e p ^ 2.
Lemma w_pos p : 0 < pt_e p -> 0 < w p.
Proof. intro H. unfold w. apply Rinv_0_lt_compat. apply pow_lt; auto. Qed.

Lemma map_w (b : list pt) : Forall (fun p => 0 < pt_e p) b -> map (fun p => (1 / pt_e p) ^ 2) b = map w b.
Proof.
  intro H. apply map_ext_in. intros p Hp. rewrite Forall_forall in H. rewrite inv_sq; auto. specialize (H p Hp). lra.
Qed.
Lemma map_w1 (b : list pt) : Forall (fun p => 0 < pt_e p) b -> map (fun p => 1 / pt_e p ^ 2) b = map w b.
Proof. intros _. apply map_ext. intro p. unfold w, Rdiv. ring. Qed.

Lemma sum_w_pos b : b <> [] -> Forall (fun p => 0 < pt_e p) b -> 0 < rsum (map w b).
Proof.
  intros N H. destruct b as [|p b]; [easy|]. inversion H; subst. cbn [map]. rewrite rsum_cons.
  assert (0 <= rsum (map w b)).
  { clear - H3. induction b as [|q b IH]; cbn [map]; [unfold rsum; cbn; lra|]. inversion H3; subst.
    rewrite rsum_cons. pose proof (w_pos q H1). specialize (IH H2). lra. }
  pose proof (w_pos p H2). lra.
Qed.

Lemma combine_norm (f : pt -> R) (b : list pt) W :
  rsum (map (fun wp => fst wp * f (snd wp)) (combine (map (fun x => x / W) (map w b)) b)) = rsum (map (fun p => f p * w p) b) / W.
Proof.
  induction b as [|p b IH]; cbn [map combine].
  - unfold rsum; cbn. unfold Rdiv. ring.
  - rewrite !rsum_cons, IH. cbn [fst snd]. unfold Rdiv. ring.
Qed.

Lemma bin_of_mean b : b <> [] -> Forall (fun p => 0 < pt_e p) b -> weighted_mean b (bin_of b).
Proof.
  intros N H. pose proof (sum_w_pos b N H) as W.
  unfold weighted_mean, bin_of. cbn [pt_t pt_m pt_e]. rewrite (map_w b H), (map_w1 b H), !combine_norm.
  change (map (fun p => / pt_e p ^ 2) b) with (map w b).
  assert (rsum (map (fun p => pt_t p * w p) b) = rsum (map (fun p => pt_t p / pt_e p ^ 2) b)) as -> by reflexivity.
  assert (rsum (map (fun p => pt_m p * w p) b) = rsum (map (fun p => pt_m p / pt_e p ^ 2) b)) as -> by reflexivity.
  assert (0 < sqrt (rsum (map w b))) as S by now apply sqrt_lt_R0.
  repeat split.
  - field. lra.
  - field. lra.
  - apply Rdiv_lt_0_compat; lra.
  - unfold Rdiv. rewrite Rmult_1_l, pow_inv, Rinv_inv. cbn [pow]. rewrite Rmult_1_r. apply sqrt_sqrt. lra.
Qed.

Lemma sum_le (f g : pt -> R) b : (forall p, In p b -> f p <= g p) -> rsum (map f b) <= rsum (map g b).
Proof.
  induction b as [|p b IH]; intro H; cbn [map]; [lra|]. rewrite !rsum_cons.
  pose proof (H p (or_introl eq_refl)). assert (rsum (map f b) <= rsum (map g b)) by (apply IH; intros; apply H; now right). lra.
Qed.
Lemma sum_scal (f : pt -> R) c b : rsum (map (fun p => c * f p) b) = c * rsum (map f b).
Proof. induction b as [|p b IH]; cbn [map]; [unfold rsum; cbn; ring|]. rewrite !rsum_cons, IH. ring. Qed.

Lemma mean_between (f : pt -> R) b x lo hi : Forall (fun p => 0 < pt_e p) b -> b <> [] ->
  (forall p, In p b -> lo <= f p <= hi) ->
  x * rsum (map (fun p => / pt_e p ^ 2) b) = rsum (map (fun p => f p / pt_e p ^ 2) b) -> lo <= x <= hi.
Proof.
  intros H N B E. pose proof (sum_w_pos b N H) as W. change (map (fun p => / pt_e p ^ 2) b) with (map w b) in E.
  rewrite Forall_forall in H.
  assert (lo * rsum (map w b) <= rsum (map (fun p => f p / pt_e p ^ 2) b)).
  { rewrite <- sum_scal. apply sum_le. intros p Hp. pose proof (w_pos p (H p Hp)). specialize (B p Hp).
    unfold Rdiv. fold (w p). nra. }
  assert (rsum (map (fun p => f p / pt_e p ^ 2) b) <= hi * rsum (map w b)).
  { rewrite <- sum_scal. apply sum_le. intros p Hp. pose proof (w_pos p (H p Hp)). specialize (B p Hp).
    unfold Rdiv. fold (w p). nra. }
  split; nra.
Qed.

Lemma w_le_sum b p : Forall (fun p => 0 < pt_e p) b -> In p b -> w p <= rsum (map w b).
Proof.
  induction b as [|q b IH]; intros H I; [easy|]. inversion H; subst. cbn [map]. rewrite rsum_cons.
  pose proof (w_pos q H2). destruct I as [->|I].
  - destruct b as [|r b]; [unfold rsum; cbn; lra|]. pose proof (sum_w_pos (r :: b) ltac:(discriminate) H3). lra.
  - specialize (IH H3 I). lra.
Qed.

Lemma mean_err b o : Forall (fun p => 0 < pt_e p) b -> weighted_mean b o -> forall p, In p b -> pt_e o <= pt_e p.
Proof.
  intros H (_ & _ & Po & E) p Hp. pose proof (w_le_sum b p H Hp) as L. change (map (fun p => / pt_e p ^ 2) b) with (map w b) in E.
  rewrite <- E in L. unfold w in L. rewrite Forall_forall in H. specialize (H p Hp).
  assert (0 < pt_e p ^ 2) by (apply pow_lt; lra). assert (0 < pt_e o ^ 2) by (apply pow_lt; lra).
  assert (pt_e o ^ 2 <= pt_e p ^ 2).
  { rewrite <- (Rinv_inv (pt_e o ^ 2)), <- (Rinv_inv (pt_e p ^ 2)). apply Rinv_le_contravar; [apply Rinv_0_lt_compat; lra|exact L]. }
  destruct (Rle_or_lt (pt_e o) (pt_e p)); auto. nra.
Qed.

(** ** The loop *)
Definition tle (p q : pt) : Prop := pt_t p <= pt_t q.

Lemma sorted_split (s : list pt) c : StronglySorted tle s ->
  filter (fun p => rltb (pt_t p) c) s ++ filter (fun p => negb (rltb (pt_t p) c)) s = s.
Proof.
  induction 1 as [|p s S IH F]; cbn; auto.
  destruct (rltb (pt_t p) c) eqn:E; cbn.
  - now rewrite IH.
  - assert (filter (fun p => rltb (pt_t p) c) s = []) as ->.
    { rewrite Forall_forall in F. clear - F E. induction s as [|q s IH]; cbn; auto.
      assert (pt_t p <= pt_t q) by (apply F; now left).
      apply rltb_false in E. assert (rltb (pt_t q) c = false) as -> by (apply rltb_false; lra).
      apply IH. intros; apply F; now right. }
    cbn. f_equal. clear - F E. apply rltb_false in E. rewrite Forall_forall in F.
    induction s as [|q s IH]; cbn; auto. assert (pt_t p <= pt_t q) by (apply F; now left).
    assert (rltb (pt_t q) c = false) as -> by (apply rltb_false; lra). cbn. f_equal. apply IH. intros; apply F; now right.
Qed.

Lemma filter_none {A} (f : A -> bool) l : (forall x, In x l -> f x = false) -> filter f l = [].
Proof.
  induction l as [|x l IH]; intro H; cbn; auto. rewrite (H x (or_introl eq_refl)). apply IH. intros; apply H; now right.
Qed.

Definition good_bins (binsize : R) (gs : list (list pt)) : Prop :=
  Forall (fun b => b <> [] /\ forall p q, In p b -> In q b -> Rabs (pt_t p - pt_t q) < binsize) gs.

Lemma sorted_app_r {A} (r : A -> A -> Prop) a b : StronglySorted r (a ++ b) -> StronglySorted r b.
Proof. induction a; cbn; auto. intro H. inversion H; auto. Qed.

Lemma loop_ok binsize : 0 < binsize -> forall n s pre fuel out, (length s <= n)%nat -> (n < fuel)%nat ->
  StronglySorted tle s -> (forall p q, In p pre -> In q s -> pt_t p < pt_t q) ->
  exists gs, bin_loop fuel (pre ++ s) binsize (length pre) out = Ok (out ++ map bin_of gs) /\
    concat gs = s /\ good_bins binsize gs /\ spaced binsize gs /\
    match s, gs with p :: _, b :: _ => is_start b (pt_t p) | [], [] => True | _, _ => False end.
Proof.
  intro B. induction n as [|n IH]; intros s pre fuel out L F S P.
  - destruct s; [|cbn in L; lia]. exists []. destruct fuel as [|fuel]; [lia|]. cbn [bin_loop].
    rewrite app_nil_r, (proj2 (nth_error_None pre (length pre))) by lia. cbn. rewrite app_nil_r. repeat split; constructor.
  - destruct s as [|p s].
    { exists []. destruct fuel as [|fuel]; [lia|]. cbn [bin_loop].
      rewrite app_nil_r, (proj2 (nth_error_None pre (length pre))) by lia. cbn. rewrite app_nil_r. repeat split; constructor. }
    destruct fuel as [|fuel]; [lia|]. cbn [bin_loop]. rewrite nth_error_app2, Nat.sub_diag by lia. cbn [nth_error].
    set (c := pt_t p + binsize).
    set (g := filter (fun q => rltb (pt_t q) c) (p :: s)). set (rest := filter (fun q => negb (rltb (pt_t q) c)) (p :: s)).
    assert (g ++ rest = p :: s) as GR by now apply sorted_split.
    assert (window (pre ++ p :: s) (pt_t p) binsize = g) as ->.
    { unfold window. rewrite filter_app, filter_none.
      - cbn [app]. unfold g. apply filter_ext_in. intros q Hq.
        assert (pt_t p <= pt_t q) as Hpq.
        { destruct Hq as [->|Hq]; [lra|]. inversion S; subst. rewrite Forall_forall in H2. now apply H2. }
        now rewrite (proj2 (rleb_true (pt_t p) (pt_t q)) Hpq).
      - intros q Hq. specialize (P q p Hq (or_introl eq_refl)).
        now rewrite (proj2 (rleb_false (pt_t p) (pt_t q)) P). }
    assert (In p g) as Pg.
    { unfold g. apply filter_In. split; [now left|]. apply rltb_true. unfold c. lra. }
    assert (forall q, In q g -> pt_t p <= pt_t q < c) as Gb.
    { intros q Hq. unfold g in Hq. apply filter_In in Hq. destruct Hq as [Hq1 Hq2]. apply rltb_true in Hq2.
      split; auto. destruct Hq1 as [->|Hq1]; [lra|]. inversion S; subst. rewrite Forall_forall in H2. now apply H2. }
    assert (forall q, In q rest -> c <= pt_t q) as Rb.
    { intros q Hq. unfold rest in Hq. apply filter_In in Hq. destruct Hq as [_ Hq2]. apply negb_true_iff, rltb_false in Hq2. lra. }
    assert (length rest <= n)%nat as Lr.
    { assert (0 < length g)%nat by (apply in_split in Pg as (? & ? & ->); rewrite app_length; cbn; lia).
      apply (f_equal (@length pt)) in GR. rewrite app_length in GR. cbn [length] in GR, L. lia. }
    rewrite <- GR, app_assoc, <- app_length.
    destruct (IH rest (pre ++ g) fuel (out ++ [bin_of g]) Lr ltac:(lia)) as (gs & E & C & Gd & Sp & St).
    { apply (sorted_app_r _ g). now rewrite GR. }
    { intros q r Hq Hr. apply in_app_or in Hq. destruct Hq as [Hq|Hq].
      - apply P; auto. rewrite <- GR. apply in_or_app. now right.
      - specialize (Gb q Hq). specialize (Rb r Hr). lra. }
    exists (g :: gs). split; [|split; [|split; [|split]]].
    + rewrite E. cbn [map]. now rewrite <- app_assoc.
    + cbn. now rewrite C.
    + constructor; auto. split; [destruct g; easy|]. intros q r Hq Hr. pose proof (Gb q Hq). pose proof (Gb r Hr).
      unfold c in *. apply Rabs_def1; lra.
    + assert (is_start g (pt_t p)) as Sg by (split; [exists p; auto|intros q Hq; apply Gb; auto]).
      destruct rest as [|r rest], gs as [|b gs]; try easy.
      * econstructor; eauto.
      * econstructor; eauto. apply (Rb r (or_introl eq_refl)).
    + split; [exists p; auto|intros q Hq; apply Gb; auto].
Qed.

Lemma sorted_map (l : list pt) : StronglySorted Rle (map pt_t l) -> StronglySorted tle l.
Proof.
  induction l as [|p l IH]; cbn; intro H; constructor; inversion H; subst; auto.
  rewrite Forall_forall in *. intros q Hq. apply H3. now apply in_map.
Qed.

Lemma timebin_bins argsort pts binsize fuel : is_argsort argsort -> 0 < binsize -> pts <> [] -> (length pts < fuel)%nat ->
  exists gs, timebin argsort fuel pts binsize = Ok (map bin_of gs) /\ Permutation (concat gs) pts /\
    good_bins binsize gs /\ spaced binsize gs.
Proof.
  intros A B N F. destruct (A (map pt_t pts)) as [P S]. rewrite map_length in P. rewrite take_map in S.
  unfold timebin. set (s := take pts (argsort (map pt_t pts))) in *.
  assert (Permutation pts s) as PS by now apply take_perm.
  destruct (loop_ok binsize B (length s) s [] fuel []) as (gs & E & C & G & Sp & _).
  - lia. - rewrite <- (Permutation_length PS). auto. - now apply sorted_map. - easy.
  - exists gs. destruct s as [|p s]; [symmetry in PS; apply Permutation_nil in PS; easy|].
    cbn [app length] in E. rewrite E. rewrite C. repeat split; auto. now symmetry.
Qed.

(** the property *)
Lemma timebin_partitions argsort pts binsize fuel : is_argsort argsort -> 0 < binsize -> pts <> [] ->
  Forall (fun p => 0 < pt_e p) pts -> (length pts < fuel)%nat ->
  exists bins out, timebin argsort fuel pts binsize = Ok out /\
    Permutation (concat bins) pts /\ Forall2 weighted_mean bins out /\ spaced binsize bins /\
    (forall b p q, In b bins -> In p b -> In q b -> Rabs (pt_t p - pt_t q) < binsize) /\ ~ In [] bins.
Proof.
  intros A B N E F. destruct (timebin_bins argsort pts binsize fuel A B N F) as (gs & T & P & G & S).
  exists gs, (map bin_of gs). unfold good_bins in G. rewrite Forall_forall in G. repeat split; auto.
  - assert (forall b, In b gs -> b <> [] /\ Forall (fun p => 0 < pt_e p) b) as H.
    { intros b Hb. split; [apply G; auto|]. rewrite Forall_forall in *. intros p Hp. apply E.
      eapply Permutation_in; [exact P|]. apply in_concat. eauto. }
    clear - H. induction gs as [|b gs IH]; cbn; constructor.
    + apply bin_of_mean; apply H; now left.
    + apply IH. intros; apply H; now right.
  - intros b p q Hb Hp Hq. now apply (G b Hb).
  - intro Hn. now apply (G [] Hn).
Qed.

(** consequences for single bins *)
Lemma mean_bounds b o tlo thi mlo mhi : b <> [] -> Forall (fun p => 0 < pt_e p) b -> weighted_mean b o ->
  (forall p, In p b -> tlo <= pt_t p <= thi /\ mlo <= pt_m p <= mhi) ->
  tlo <= pt_t o <= thi /\ mlo <= pt_m o <= mhi /\ 0 < pt_e o /\ forall p, In p b -> pt_e o <= pt_e p.
Proof.
  intros N H M B. pose proof M as (M1 & M2 & M3 & M4). split; [|split; [|split; [auto|]]].
  - apply (mean_between pt_t b); auto. intros p Hp. apply B; auto.
  - apply (mean_between pt_m b); auto. intros p Hp. apply B; auto.
  - now apply mean_err.
Qed.

(** total inverse variance *)
Lemma rsum_concat (f : pt -> R) gs : rsum (map f (concat gs)) = rsum (map (fun b => rsum (map f b)) gs).
Proof. induction gs as [|b gs IH]; cbn [concat map]; auto. now rewrite map_app, rsum_app, rsum_cons, IH. Qed.

Lemma timebin_inverse_variance argsort pts binsize fuel out : is_argsort argsort -> 0 < binsize -> pts <> [] ->
  Forall (fun p => 0 < pt_e p) pts -> (length pts < fuel)%nat -> timebin argsort fuel pts binsize = Ok out ->
  rsum (map (fun o => / pt_e o ^ 2) out) = rsum (map (fun p => / pt_e p ^ 2) pts) /\
  rsum (map (fun o => pt_m o / pt_e o ^ 2) out) = rsum (map (fun p => pt_m p / pt_e p ^ 2) pts) /\
  (length out <= length pts)%nat.
Proof.
  intros A B N E F T. destruct (timebin_partitions argsort pts binsize fuel A B N E F) as (gs & o & T2 & P & M & _ & _ & Ne).
  rewrite T2 in T. inversion T; subst o. clear T T2.
  rewrite <- (rsum_perm _ _ (Permutation_map (fun p => / pt_e p ^ 2) P)), <- (rsum_perm _ _ (Permutation_map (fun p => pt_m p / pt_e p ^ 2) P)).
  rewrite !rsum_concat, <- (Permutation_length P). clear P.
  induction M as [|b o gs out (H1 & H2 & H3 & H4) M IH]; cbn [map concat]; [auto|].
  destruct IH as (I1 & I2 & I3); [intro; apply Ne; now right|]. rewrite !rsum_cons, app_length, I1, I2. repeat split.
  - now rewrite H4.
  - unfold Rdiv at 1. now rewrite H4, H2.
  - cbn [length]. destruct b; [exfalso; apply Ne; now left|]. cbn. lia.
Qed.

(** without a positive bin size no point falls into the first window: the loop never advances *)
Lemma timebin_nonpositive argsort pts binsize fuel : is_argsort argsort -> binsize <= 0 -> pts <> [] ->
  timebin argsort fuel pts binsize = Err OutOfFuel.
Proof.
  intros A B N. unfold timebin. destruct (A (map pt_t pts)) as [P _]. rewrite map_length in P.
  pose proof (take_perm pts _ P) as PS. set (s := take _ _) in *.
  destruct s as [|p s1] eqn:Es; [symmetry in PS; apply Permutation_nil in PS; easy|].
  cut (forall out, bin_loop fuel (p :: s1) binsize 0 out = Err OutOfFuel); [intro H; apply H|].
  induction fuel as [|f IH]; intro out; cbn [bin_loop nth_error]; auto.
  unfold window. rewrite filter_none; [cbn [length]; rewrite Nat.add_0_r; apply IH|].
  intros q _. destruct (rleb (pt_t p) (pt_t q)) eqn:L; auto. apply rleb_true in L. cbn. apply rltb_false. lra.
Qed.
