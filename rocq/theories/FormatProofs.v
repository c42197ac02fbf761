From Coq Require Import ZArith Reals String Bool Lra Lia List.
From Flocq Require Import Core.
From Verif Require Import Py PyFacts PyFloat Format.
Open Scope R_scope.

Notation p10 := (powerRZ 10).
Lemma p10_pos n : 0 < p10 n.
Proof. apply powerRZ_lt. lra. Qed.
Lemma p10_add a b : p10 (a + b) = p10 a * p10 b.
Proof. apply powerRZ_add. lra. Qed.
Lemma p10_opp n : p10 n * p10 (- n) = 1.
Proof. rewrite <- p10_add. replace (n + - n)%Z with 0%Z by lia. reflexivity. Qed.
Lemma p10_le a b : (a <= b)%Z -> p10 a <= p10 b.
Proof.
  intro H. replace b with (a + (b - a))%Z by lia. rewrite p10_add. pose proof (p10_pos a).
  assert (1 <= p10 (b - a)); [|nra]. replace (b - a)%Z with (Z.of_nat (Z.to_nat (b - a))) by lia.
  rewrite <- pow_powerRZ. apply pow_R1_Rle. lra.
Qed.
Lemma p10_ln n : ln (p10 n) = IZR n * ln 10.
Proof. rewrite powerRZ_Rpower by lra. unfold Rpower. now rewrite ln_exp. Qed.
Lemma ln10 : 0 < ln 10.
Proof. rewrite <- ln_1. apply ln_increasing; lra. Qed.

Lemma nearest_IZR z : ZnearestE (IZR z) = z.
Proof. apply Zrnd_IZR, valid_rnd_N. Qed.

(** ** decimal rounding *)
Lemma round_dec_error x n : Rabs (round_dec x n - x) <= / 2 * p10 (- n).
Proof.
  unfold round_dec. pose proof (Znearest_half (fun z => negb (Z.even z)) (x * p10 n)) as H. pose proof (p10_pos (- n)) as P. pose proof (p10_opp n) as O.
  set (z := IZR (ZnearestE (x * p10 n))) in *.
  replace (z * p10 (- n) - x) with (- ((x * p10 n - z) * p10 (- n))).
  - rewrite Rabs_Ropp, Rabs_mult, (Rabs_pos_eq (p10 (- n))) by lra. apply Rmult_le_compat_r; [lra|exact H].
  - transitivity (z * p10 (- n) - x * (p10 n * p10 (- n))); [ring|rewrite O; ring].
Qed.
Lemma round_dec_multiple x n : exists k, round_dec x n = IZR k * p10 (- n).
Proof. eexists. reflexivity. Qed.
Lemma round_dec_idem x n : round_dec (round_dec x n) n = round_dec x n.
Proof.
  unfold round_dec. set (z := ZnearestE (x * p10 n)). replace (IZR z * p10 (- n) * p10 n) with (IZR z).
  - now rewrite nearest_IZR.
  - transitivity (IZR z * (p10 n * p10 (- n))); [rewrite p10_opp; ring|ring].
Qed.
(** nothing nearer among the multiples *)
Lemma round_dec_best x n k : Rabs (round_dec x n - x) <= Rabs (IZR k * p10 (- n) - x).
Proof.
  pose proof (p10_pos n) as Pn. pose proof (p10_pos (- n)) as P. pose proof (p10_opp n) as O.
  assert (forall z, Rabs (z * p10 (- n) - x) = Rabs (z - x * p10 n) * p10 (- n)) as E.
  { intro z. rewrite <- (Rabs_pos_eq (p10 (- n))) at 2 by lra. rewrite <- Rabs_mult. f_equal.
    transitivity (z * p10 (- n) - x * (p10 n * p10 (- n))); [rewrite O; ring|ring]. }
  unfold round_dec. rewrite !E. apply Rmult_le_compat_r; [lra|].
  rewrite (Rabs_minus_sym _ (x * p10 n)), (Rabs_minus_sym (IZR k) (x * p10 n)).
  pose proof (Znearest_half (fun z => negb (Z.even z)) (x * p10 n)) as H.
  destruct (Z.eq_dec k (ZnearestE (x * p10 n))) as [->|N]; [lra|].
  assert (1 <= Rabs (IZR k - IZR (ZnearestE (x * p10 n)))) as D.
  { rewrite <- minus_IZR, <- abs_IZR. apply IZR_le. lia. }
  set (r := IZR (ZnearestE (x * p10 n))) in *. set (y := x * p10 n) in *.
  assert (Rabs (IZR k - r) <= Rabs (y - IZR k) + Rabs (y - r)).
  { replace (IZR k - r) with (- (y - IZR k) + (y - r)) by ring. eapply Rle_trans; [apply Rabs_triang|]. rewrite Rabs_Ropp. lra. }
  lra.
Qed.

(** the decade of x *)
Lemma decade x : x <> 0 -> let k := Zfloor (log10 (Rabs x)) in p10 k <= Rabs x < p10 (k + 1).
Proof.
  intros N k. assert (0 < Rabs x) as P by now apply Rabs_pos_lt. pose proof ln10 as L.
  pose proof (Zfloor_lb (log10 (Rabs x))) as A. pose proof (Zfloor_ub (log10 (Rabs x))) as B. fold k in A, B. unfold log10 in A, B.
  assert (IZR k * ln 10 <= ln (Rabs x)) as A'.
  { apply Rmult_le_compat_r with (r := ln 10) in A; [|lra]. unfold Rdiv in A. rewrite Rmult_assoc, Rinv_l in A by lra. lra. }
  assert (ln (Rabs x) < (IZR k + 1) * ln 10) as B'.
  { apply Rmult_lt_compat_r with (r := ln 10) in B; [|lra]. unfold Rdiv in B. rewrite Rmult_assoc, Rinv_l in B by lra. lra. }
  rewrite <- p10_ln in A'. replace (IZR k + 1) with (IZR (k + 1)) in B' by (rewrite plus_IZR; ring). rewrite <- p10_ln in B'.
  pose proof (p10_pos k). pose proof (p10_pos (k + 1)). split.
  - apply Rnot_lt_le. intro C. apply ln_increasing in C; lra.
  - apply ln_lt_inv; auto.
Qed.

Lemma nearest_pos y : 1 <= y -> 1 <= IZR (ZnearestE y).
Proof.
  intro H. apply IZR_le. pose proof (Znearest_half (fun z => negb (Z.even z)) y) as D. apply Rabs_le_inv in D.
  assert (IZR 0 < IZR (ZnearestE y)) as E by lra. apply lt_IZR in E. lia.
Qed.
Lemma nearest_neg y : y <= -1 -> IZR (ZnearestE y) <= -1.
Proof.
  intro H. apply IZR_le. pose proof (Znearest_half (fun z => negb (Z.even z)) y) as D. apply Rabs_le_inv in D.
  assert (IZR (ZnearestE y) < IZR 0) as E by lra. apply lt_IZR in E. lia.
Qed.

Lemma round_sig_spec x sig : x <> 0 -> exists k, p10 k <= Rabs x < p10 (k + 1) /\
  (exists z, round_sig x sig = IZR z * p10 (k + 1 - sig)) /\
  Rabs (round_sig x sig - x) <= / 2 * p10 (k + 1 - sig) /\
  ((1 <= sig)%Z -> (0 < x -> 0 < round_sig x sig) /\ (x < 0 -> round_sig x sig < 0)).
Proof.
  intro N. exists (Zfloor (log10 (Rabs x))). pose proof (decade x N) as D. cbv zeta in D. set (k := Zfloor (log10 (Rabs x))) in *.
  split; auto. unfold round_sig. rewrite (proj2 (reqb_false _ _) N). fold k.
  replace (k + 1 - sig)%Z with (- (sig - k - 1))%Z by lia. split; [apply round_dec_multiple|]. split; [apply round_dec_error|].
  intro S. unfold round_dec. pose proof (p10_pos (- (sig - k - 1))) as P. set (n := (sig - k - 1)%Z) in *.
  assert (1 <= Rabs x * p10 n) as B.
  { assert (p10 (- k) <= p10 n) as L by (apply p10_le; unfold n; lia). pose proof (p10_opp k). pose proof (p10_pos (- k)). pose proof (p10_pos k). nra. }
  split; intro H.
  - rewrite Rabs_pos_eq in B by lra. pose proof (nearest_pos _ B). nra.
  - rewrite Rabs_left in B by lra. assert (x * p10 n <= -1) as B' by lra. pose proof (nearest_neg _ B'). nra.
Qed.
Lemma round_sig_zero sig : round_sig 0 sig = 0.
Proof. unfold round_sig. now rewrite (proj2 (reqb_true 0 0)). Qed.

(** ** durations *)
Definition unit_seconds (u : string) : option R :=
  if String.eqb u "seconds" then Some 1 else if String.eqb u "minutes" then Some 60
  else if String.eqb u "hours" then Some 3600 else if String.eqb u "days" then Some 86400 else None.
Lemma time_print_duration t v u : time_print t = (v, u) -> exists s, unit_seconds u = Some s /\ v * s = t /\
  (s = 1 -> t <= 60) /\ (s = 60 -> 1 < v <= 60) /\ (s = 3600 -> 1 < v <= 24) /\ (s = 86400 -> 1 < v).
Proof.
  unfold time_print.
  destruct (rltb 60 t) eqn:E1; [apply rltb_true in E1; destruct (rltb 60 (t / 60)) eqn:E2; [apply rltb_true in E2; destruct (rltb 24 (t / 60 / 60)) eqn:E3|]|];
    intro H; inversion H; subst; clear H; cbn [unit_seconds String.eqb Ascii.eqb Bool.eqb];
    eexists; (split; [reflexivity|]); repeat split; try lra;
    try apply rltb_true in E3; try apply rltb_false in E3; try apply rltb_false in E2; try apply rltb_false in E1; lra.
Qed.

(** ** sigfig *)
Lemma p10_big y : 0 < y -> exists N, forall p, (N <= p)%Z -> 1 <= y * p10 p.
Proof.
  intro H. exists (- Zfloor (log10 y))%Z. intros p Hp.
  pose proof (decade y ltac:(lra)) as D. cbv zeta in D. rewrite (Rabs_pos_eq y) in D by lra. set (k := Zfloor (log10 y)) in *.
  assert (p10 (- k) <= p10 p) by (apply p10_le; lia). pose proof (p10_opp k). pose proof (p10_pos k). pose proof (p10_pos (- k)). nra.
Qed.
Lemma round_dec_nonzero x : x <> 0 -> exists N, forall p, (N <= p)%Z -> round_dec x p <> 0.
Proof.
  intro H. destruct (p10_big (Rabs x) ltac:(now apply Rabs_pos_lt)) as [N HN]. exists N. intros p Hp. specialize (HN p Hp).
  unfold round_dec. pose proof (p10_pos (- p)). destruct (Rle_dec 0 x) as [P|P].
  - rewrite Rabs_pos_eq in HN by lra. pose proof (nearest_pos _ HN). nra.
  - rewrite Rabs_left in HN by lra. assert (x * p10 p <= -1) as B by lra. pose proof (nearest_neg _ B). nra.
Qed.

Lemma sf_loop_ok med nd : med <> 0 -> forall p tmp, (0 <= p)%Z -> exists F, forall fuel, (F <= fuel)%nat ->
  exists m, sf_loop fuel med nd p tmp = Ok m /\ m <> 0 /\ (m = tmp \/ exists q, (p <= q)%Z /\ m = round_dec med (nd + q)).
Proof.
  intro H. destruct (round_dec_nonzero med H) as [N HN].
  assert (forall d p tmp, (N <= nd + p + Z.of_nat d)%Z -> exists F, forall fuel, (F <= fuel)%nat ->
    exists m, sf_loop fuel med nd p tmp = Ok m /\ m <> 0 /\ (m = tmp \/ exists q, (p <= q)%Z /\ m = round_dec med (nd + q))) as K.
  { induction d as [|d IH]; intros p tmp L.
    - exists 1%nat. intros [|fuel] Hf; [lia|]. cbn [sf_loop]. destruct (reqb tmp 0) eqn:E.
      + exists (round_dec med (nd + p)). assert (round_dec med (nd + p) <> 0) as NZ by (apply HN; lia).
        destruct fuel; cbn [sf_loop]; rewrite (proj2 (reqb_false _ _) NZ); (split; [reflexivity|]); (split; [auto|]); right; exists p; split; auto; lia.
      + apply reqb_false in E. exists tmp. auto.
    - destruct (IH (p + 1)%Z (round_dec med (nd + p)) ltac:(lia)) as [F HF]. exists (S F). intros [|fuel] Hf; [lia|].
      cbn [sf_loop]. destruct (reqb tmp 0) eqn:E.
      + destruct (HF fuel ltac:(lia)) as (m & E1 & E2 & E3). exists m. split; auto. split; auto. right.
        destruct E3 as [->|(q & Hq & ->)]; [exists p; split; auto; lia|exists q; split; auto; lia].
      + apply reqb_false in E. exists tmp. auto. }
  intros p tmp Hp. apply (K (Z.to_nat (N - nd - p)) p tmp). lia.
Qed.

Lemma sigfig_terminates dexp ends0 med errlow errhigh : exists F, forall fuel, (F <= fuel)%nat ->
  exists m lo hi, sigfig dexp ends0 fuel med errlow errhigh = Ok (m, lo, hi).
Proof.
  destruct (Req_dec med 0) as [->|N].
  - exists 0%nat. intros fuel _. unfold sigfig. rewrite (proj2 (reqb_true 0 0) eq_refl). cbn [negb].
    repeat match goal with |- context [if ?b then _ else _] => destruct b end; eauto.
  - set (hi := match errhigh with Some h => h | None => errlow end).
    set (nd := if (Z.abs (dexp errlow) <? Z.abs (dexp hi))%Z then dexp hi else dexp errlow).
    destruct (sf_loop_ok med (Z.abs nd) N 0 (round_dec med (Z.abs nd)) ltac:(lia)) as [F HF]. exists F. intros fuel Hf.
    unfold sigfig. fold hi. fold nd. rewrite (proj2 (reqb_false _ _) N). cbn [negb].
    destruct (HF fuel Hf) as (m & E & _). rewrite E. cbn [bind].
    repeat match goal with |- context [if ?b then _ else _] => destruct b end; eauto.
Qed.
(** a non-zero median is never printed as zero when the errors have two or more decimals, and
    it moves by at most half a unit of the last decimal of the error that has more of them *)
Lemma sigfig_value dexp ends0 fuel med lo hi m lo' hi' : med <> 0 -> (dexp lo < -1)%Z -> (dexp hi < -1)%Z ->
  sigfig dexp ends0 fuel med lo (Some hi) = Ok (m, lo', hi') ->
  lo' = lo /\ hi' = hi /\ m <> 0 /\ Rabs (m - med) <= / 2 * p10 (Z.min (dexp lo) (dexp hi)).
Proof.
  intros N L1 L2. unfold sigfig. set (nd := if (Z.abs (dexp lo) <? Z.abs (dexp hi))%Z then dexp hi else dexp lo).
  assert (nd = Z.min (dexp lo) (dexp hi)) as En. { unfold nd. destruct (Z.ltb_spec (Z.abs (dexp lo)) (Z.abs (dexp hi))); lia. }
  rewrite (proj2 (Z.ltb_lt nd (-1))) by lia. rewrite (proj2 (reqb_false _ _) N). cbn [negb].
  destruct (sf_loop fuel med (Z.abs nd) 0 (round_dec med (Z.abs nd))) as [m1|e] eqn:E; cbn [bind]; [|discriminate].
  intro H; inversion H; subst; clear H. split; auto. split; auto.
  assert (forall fuel p tmp, (0 <= p)%Z -> sf_loop fuel med (Z.abs nd) p tmp = Ok m -> m <> 0 /\ (m = tmp \/ exists q, (0 <= q)%Z /\ m = round_dec med (Z.abs nd + q))) as K.
  { clear. induction fuel as [|fuel IH]; intros p tmp Hp; cbn [sf_loop]; destruct (reqb tmp 0) eqn:E; try discriminate.
    - intro H. inversion H; subst. apply reqb_false in E. auto.
    - intro H. destruct (IH (p + 1)%Z _ ltac:(lia) H) as [A [->|(q & Hq & ->)]]; (split; [auto|]); right; [exists p|exists q]; auto.
    - intro H. inversion H; subst. apply reqb_false in E. auto. }
  destruct (K _ _ _ (Z.le_refl 0) E) as [A B]. split; auto. rewrite <- En.
  assert (forall q, (0 <= q)%Z -> p10 (- (Z.abs nd + q)) <= p10 nd) as M by (intros q Hq; apply p10_le; lia).
  destruct B as [->|(q & Hq & ->)]; (eapply Rle_trans; [apply round_dec_error|]); apply Rmult_le_compat_l; try lra.
  - specialize (M 0%Z ltac:(lia)). now rewrite Z.add_0_r in M.
  - apply M; auto.
Qed.

(** equal errors do not come out equal: errlow keeps two significant figures, errhigh all of them *)
Lemma sigfig_unequal : exists dexp ends0 med err m lo hi,
  (* '123.0' has exponent -1 and ends in 0 *)
  dexp err = (-1)%Z /\ ends0 err = true /\ err = 123 /\
  (forall fuel, sigfig dexp ends0 fuel med err None = Ok (m, lo, hi)) /\ lo <> hi.
Proof.
  exists (fun _ => (-1)%Z), (fun _ => true), 1234, 123, 1234, 120, 123. repeat split; auto; [|lra].
  intro fuel. unfold sigfig. cbn [Z.abs Z.ltb Z.compare Pos.compare Pos.compare_cont Z.eqb Pos.eqb andb orb].
  assert (ZnearestE 1234 = 1234%Z) as -> by (apply (nearest_IZR 1234)).
  assert (ZnearestE 123 = 123%Z) as -> by (apply (nearest_IZR 123)).
  assert (round_sig 123 2 = 120) as ->; [|rewrite (Ztrunc_IZR 120); reflexivity].
  unfold round_sig. rewrite (proj2 (reqb_false 123 0)) by lra.
  assert (Zfloor (log10 (Rabs 123)) = 2%Z) as ->.
  { pose proof (decade 123 ltac:(lra)) as D. cbv zeta in D. set (k := Zfloor _) in *. rewrite Rabs_pos_eq in D by lra.
    destruct (Z.le_gt_cases k 1) as [L|G].
    - exfalso. pose proof (p10_le (k + 1) 2 ltac:(lia)) as Q. change (p10 2) with (10 * (10 * 1)) in Q. lra.
    - destruct (Z.le_gt_cases k 2); [lia|]. exfalso. pose proof (p10_le 3 k ltac:(lia)) as Q. change (p10 3) with (10 * (10 * (10 * 1))) in Q. lra. }
  unfold round_dec. replace (2 - 2 - 1)%Z with (-1)%Z by lia.
  assert (ZnearestE (123 * p10 (-1)) = 12%Z) as ->.
  { apply Znearest_imp. change (p10 (-1)) with (/ (10 * 1)). replace (123 * / (10 * 1) - 12) with (3 / 10) by field. rewrite Rabs_pos_eq; lra. }
  change (p10 (- -1)) with (10 * 1). lra.
Qed.
