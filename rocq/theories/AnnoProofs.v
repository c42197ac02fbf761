(** Proofs about the text in a panel (C80). *)
From Coq Require Import ZArith Reals String Arith Bool Lra Lia List.
From Flocq Require Import Core.
From Verif Require Import Py PyFacts PyFloat Params Format FormatProofs Stats PostProc PostProcSpec DerivTab DerivTabSpec DerivTabThms TexLabels ChainPlot ChainPlotThms Anno AnnoSpec.
Import ListNotations.
Open Scope R_scope.

(** ** rounding twice *)
Lemma nearest_half0 y : Rabs y <= / 2 -> ZnearestE y = 0%Z.
Proof.
  intro H. apply Rabs_le_inv in H. assert (ZnearestE (/ 2) = 0%Z) as A.
  { unfold Znearest. assert (Zfloor (/ 2) = 0%Z) as -> by (apply Zfloor_imp; cbn; lra). rewrite Rcompare_Eq by lra. reflexivity. }
  assert (ZnearestE (- / 2) = 0%Z) as B.
  { unfold Znearest. assert (Zfloor (- / 2) = (-1)%Z) as -> by (apply Zfloor_imp; cbn; lra). rewrite Rcompare_Eq by lra. cbn [negb Z.even]. unfold Zceil. rewrite Ropp_involutive.
    assert (Zfloor (/ 2) = 0%Z) as -> by (apply Zfloor_imp; cbn; lra). reflexivity. }
  pose proof (Zrnd_le ZnearestE y (/ 2) ltac:(lra)) as U. pose proof (Zrnd_le ZnearestE (- / 2) y ltac:(lra)) as L. lia.
Qed.
Lemma round_zero x n : round_dec x n = 0 <-> Rabs (x * p10 n) <= / 2.
Proof.
  unfold round_dec. pose proof (p10_pos (- n)) as P. split; intro H.
  - assert (IZR (ZnearestE (x * p10 n)) = 0) as Z by nra. pose proof (Znearest_half (fun z => negb (Z.even z)) (x * p10 n)) as D. rewrite Z in D. now rewrite Rminus_0_r in D.
  - rewrite (nearest_half0 _ H). lra.
Qed.
Lemma p10_1 : p10 1 = 10.
Proof. change (p10 1) with (10 * 1). lra. Qed.
Lemma p10_nat n : exists k, p10 (Z.of_nat n) = IZR k.
Proof.
  induction n as [|n [k IH]]; [exists 1%Z; reflexivity|]. exists (10 * k)%Z. replace (Z.of_nat (S n)) with (1 + Z.of_nat n)%Z by lia. rewrite p10_add, IH, mult_IZR, p10_1. reflexivity.
Qed.
Lemma round_small x n n' : (n <= n')%Z -> round_dec x n = 0 -> round_dec (round_dec x n') n = 0.
Proof.
  intros L H. destruct (Z.eq_dec n n') as [<-|N]; [rewrite H; apply round_zero; rewrite Rmult_0_l, Rabs_R0; lra|].
  apply round_zero in H. apply round_zero. destruct (p10_nat (Z.to_nat (n' - n - 1))) as [k Hk]. rewrite Z2Nat.id in Hk by lia.
  assert (p10 n' = p10 n * (10 * IZR k)) as E. { rewrite <- Hk. replace n' with (n + (1 + (n' - n - 1)))%Z at 1 by lia. rewrite p10_add, p10_add, p10_1. reflexivity. }
  assert (Rabs (x * p10 n') <= IZR (5 * k)) as B.
  { rewrite mult_IZR, E. replace (x * (p10 n * (10 * IZR k))) with (x * p10 n * (10 * IZR k)) by ring. rewrite Rabs_mult. assert (0 < IZR k) as Pk by (rewrite <- Hk; apply p10_pos).
    rewrite (Rabs_pos_eq (10 * IZR k)) by lra. pose proof (Rabs_pos (x * p10 n)). nra. }
  apply Rabs_le_inv in B. unfold round_dec. set (z := ZnearestE (x * p10 n')).
  assert (z <= 5 * k)%Z as U by (rewrite <- (nearest_IZR (5 * k)); unfold z; apply (Zrnd_le ZnearestE); lra).
  assert (- (5 * k) <= z)%Z as D by (rewrite <- (nearest_IZR (- (5 * k))); unfold z; apply (Zrnd_le ZnearestE); rewrite opp_IZR; lra).
  assert (IZR k * 10 * (p10 (- n') * p10 n) = 1) as Q. { pose proof (p10_opp n') as O. rewrite E in O at 1. lra. }
  assert (0 < p10 (- n') * p10 n) as P by (apply Rmult_lt_0_compat; apply p10_pos). set (w := p10 (- n') * p10 n) in *.
  replace (IZR z * p10 (- n') * p10 n) with (IZR z * w) by (unfold w; ring). apply Rabs_le. apply IZR_le in U, D. rewrite opp_IZR, mult_IZR in *. split; nra.
Qed.

Lemma loop_level fuel v nd : forall p q tmp m, sf_loop fuel v nd p tmp = Ok m -> tmp = round_dec v (nd + q) -> (q <= p)%Z -> exists q', (q <= q')%Z /\ m = round_dec v (nd + q').
Proof.
  induction fuel as [|f IH]; intros p q tmp m H E L; cbn [sf_loop] in H; destruct (reqb tmp 0); try discriminate; try (injection H as <-; exists q; split; [lia|exact E]).
  destruct (IH (p + 1)%Z p _ _ H eq_refl ltac:(lia)) as (q' & Q1 & Q2). exists q'. split; [lia|exact Q2].
Qed.
Lemma loop_again fuel v nd : forall p q tmp m, sf_loop fuel v nd p tmp = Ok m -> tmp = round_dec v (nd + q) -> (q <= p)%Z -> sf_loop fuel m nd p (round_dec m (nd + q)) = Ok m.
Proof.
  induction fuel as [|f IH]; intros p q tmp m H E L; cbn [sf_loop] in *; destruct (reqb tmp 0) eqn:T; try discriminate.
  - injection H as <-. assert (round_dec tmp (nd + q) = tmp) as -> by (rewrite E; apply round_dec_idem). rewrite T. reflexivity.
  - apply reqb_true in T. destruct (loop_level f v nd _ p _ _ H eq_refl ltac:(lia)) as (q' & Q1 & Q2).
    assert (round_dec m (nd + q) = 0) as -> by (rewrite Q2; apply round_small; [lia|congruence]). rewrite (proj2 (reqb_true 0 0) eq_refl). apply (IH (p + 1)%Z p _ _ H eq_refl). lia.
  - injection H as <-. assert (round_dec tmp (nd + q) = tmp) as -> by (rewrite E; apply round_dec_idem). rewrite T. reflexivity.
Qed.
Lemma loop_nonzero fuel v nd : forall p tmp m, sf_loop fuel v nd p tmp = Ok m -> m <> 0.
Proof. induction fuel as [|f IH]; intros p tmp m H; cbn [sf_loop] in H; destruct (reqb tmp 0) eqn:T; try discriminate; try (injection H as <-; now apply reqb_false); eauto. Qed.

Lemma round_exact x n z : x * p10 n = IZR z -> round_dec x n = x.
Proof. intro H. unfold round_dec. rewrite H, nearest_IZR, <- H. transitivity (x * (p10 n * p10 (- n))); [ring|rewrite p10_opp; ring]. Qed.
Lemma decade_unique x k k' : p10 k <= x < p10 (k + 1) -> p10 k' <= x < p10 (k' + 1) -> k = k'.
Proof.
  intros A B. destruct (Z.lt_trichotomy k k') as [L|[E|L]]; [|exact E|].
  - pose proof (p10_le (k + 1) k' ltac:(lia)). lra.
  - pose proof (p10_le (k' + 1) k ltac:(lia)). lra.
Qed.
Lemma round_sig_again x : round_sig (round_sig x 2) 2 = round_sig x 2.
Proof.
  destruct (Req_dec x 0) as [->|N]; [rewrite !round_sig_zero; reflexivity|]. destruct (round_sig_spec x 2 N) as (k & D & (z & Z) & E & _). set (r := round_sig x 2) in *.
  replace (k + 1 - 2)%Z with (k - 1)%Z in * by lia. assert (p10 k = 10 * p10 (k - 1)) as K1. { replace k with (1 + (k - 1))%Z at 1 by lia. rewrite p10_add, p10_1. reflexivity. }
  assert (p10 (k + 1) = 100 * p10 (k - 1)) as K2. { replace (k + 1)%Z with (1 + k)%Z by lia. rewrite p10_add, K1, p10_1. lra. }
  set (w := p10 (k - 1)) in *. assert (0 < w) as W by apply p10_pos.
  assert (10 <= Rabs (IZR z) <= 100) as B.
  { assert (Rabs r = Rabs (IZR z) * w) as R by (rewrite Z, Rabs_mult, (Rabs_pos_eq w) by lra; reflexivity). pose proof (Rabs_triang_inv r x) as T1. pose proof (Rabs_triang_inv x r) as T2. rewrite (Rabs_minus_sym x r) in T2.
    assert (9 < Rabs (IZR z) < 101) as B. { split; apply Rmult_lt_reg_r with w; lra. } rewrite <- abs_IZR in B |- *. destruct B as [B1 B2]. apply lt_IZR in B1, B2. split; apply IZR_le; lia. }
  assert (Rabs r = Rabs (IZR z) * w) as R by (rewrite Z, Rabs_mult, (Rabs_pos_eq w) by lra; reflexivity).
  assert (r <> 0) as NR by (intro Q; rewrite Q, Rabs_R0 in R; nra). unfold round_sig at 1. rewrite (proj2 (reqb_false _ _) NR). pose proof (decade r NR) as DR. cbv zeta in DR. set (k' := Zfloor (log10 (Rabs r))) in *.
  destruct (Rlt_dec (Rabs (IZR z)) 100) as [L|G].
  - assert (k' = k) as -> by (apply (decade_unique (Rabs r)); [exact DR|rewrite R, K1, K2; nra]). apply (round_exact r _ z). rewrite Z. unfold w. rewrite Rmult_assoc, <- p10_add. replace (k - 1 + (2 - k - 1))%Z with 0%Z by lia. change (p10 0) with 1. lra.
  - assert (Rabs (IZR z) = 100) as Z100 by lra. assert (p10 (k + 1 + 1) = 1000 * w) as K3. { replace (k + 1 + 1)%Z with (1 + (k + 1))%Z by lia. rewrite p10_add, K2, p10_1. lra. }
    assert (k' = (k + 1)%Z) as -> by (apply (decade_unique (Rabs r)); [exact DR|rewrite R, K2, K3; nra]).
    assert (z = 100 \/ z = -100)%Z as HZ. { rewrite <- abs_IZR in Z100. apply eq_IZR in Z100. lia. }
    apply (round_exact r _ (z / 10)). rewrite Z. unfold w. rewrite Rmult_assoc, <- p10_add. replace (k - 1 + (2 - (k + 1) - 1))%Z with (-1)%Z by lia. change (p10 (-1)) with (/ (10 * 1)). destruct HZ as [-> | ->]; [change (100 / 10)%Z with 10%Z|change (-100 / 10)%Z with (-10)%Z]; lra.
Qed.

Section Sig.
Variables (dexp : R -> Z) (ends0 : R -> bool) (fuel : nat).
Lemma sigfig_none v e : sigfig dexp ends0 fuel v e None =
  if (dexp e <? -1)%Z then (if negb (reqb v 0) then do m <- sf_loop fuel v (Z.abs (dexp e)) 0 (round_dec v (Z.abs (dexp e))); Ok (m, e, e) else Ok (v, e, e))
  else if ((dexp e =? -1)%Z && ends0 e || (dexp e =? 0)%Z)%bool then Ok (IZR (ZnearestE v), IZR (Ztrunc (round_sig e 2)), IZR (ZnearestE e))
  else Ok (round_dec v (Z.abs (dexp e)), e, e).
Proof. unfold sigfig. rewrite Z.ltb_irrefl. destruct (dexp e <? -1)%Z; [reflexivity|]. destruct (dexp e =? -1)%Z, (ends0 e); reflexivity. Qed.

Lemma sigfig_stands v e m e1 e2 : sigfig dexp ends0 fuel v e None = Ok (m, e1, e2) -> stands_for dexp v e m e1.
Proof.
  rewrite sigfig_none. destruct (dexp e <? -1)%Z eqn:D.
  - destruct (reqb v 0) eqn:V; cbn [negb].
    + intro H. injection H as <- <- <-. left. split; [reflexivity|]. rewrite Rminus_diag_eq by reflexivity. rewrite Rabs_R0. pose proof (p10_pos (- Z.abs (dexp e))). lra.
    + destruct (sf_loop _ _ _ _ _) as [m'|] eqn:L; [|discriminate]. cbn [bind]. intro H. injection H as -> <- <-. left. split; [reflexivity|].
      destruct (loop_level fuel v _ 0 0 _ _ L ltac:(f_equal; lia) ltac:(lia)) as (q & Q & ->). eapply Rle_trans; [apply round_dec_error|]. apply Rmult_le_compat_l; [lra|]. apply p10_le. lia.
  - destruct (_ || _)%bool.
    + intro H. injection H as <- <- <-. right. split; [eauto|]. split; [eauto|]. split.
      * rewrite Rabs_minus_sym. apply Znearest_half.
      * destruct (Req_dec e 0) as [->|N]. { rewrite round_sig_zero. rewrite (Ztrunc_IZR 0). rewrite Rminus_0_r, Rabs_R0. lra. }
        destruct (round_sig_spec e 2 N) as (k & [D1 _] & _ & E & _). set (r := round_sig e 2) in *.
        assert (p10 (k + 1 - 2) <= Rabs e / 10) as B. { replace k with (1 + (k + 1 - 2))%Z in D1 at 1 by lia. rewrite p10_add in D1. change (p10 1) with (10 * 1) in D1. lra. }
        assert (Rabs (IZR (Ztrunc r) - r) < 1) as T.
        { destruct (Rle_dec 0 r); [rewrite Ztrunc_floor by lra; pose proof (Zfloor_lb r); pose proof (Zfloor_ub r); apply Rabs_def1; lra|].
          rewrite Ztrunc_ceil by lra. pose proof (Zceil_ub r). assert (IZR (Zceil r) < r + 1) by (unfold Zceil; rewrite opp_IZR; pose proof (Zfloor_ub (- r)); lra). apply Rabs_def1; lra. }
        replace (IZR (Ztrunc r) - e) with (IZR (Ztrunc r) - r + (r - e)) by ring. eapply Rle_lt_trans; [apply Rabs_triang|]. lra.
    + intro H. injection H as <- <- <-. left. split; [reflexivity|]. apply round_dec_error.
Qed.

Lemma sigfig_again x v m e1 e2 : wholes dexp ends0 -> sigfig dexp ends0 fuel v (round_sig x 2) None = Ok (m, e1, e2) ->
  e1 = round_sig x 2 /\ sigfig dexp ends0 fuel m (round_sig x 2) None = Ok (m, e1, e1).
Proof.
  intro HW. pose proof (round_sig_again x) as RS. set (e := round_sig x 2) in *. clearbody e. rewrite !sigfig_none. destruct (dexp e <? -1)%Z eqn:D.
  - destruct (reqb v 0) eqn:V; cbn [negb].
    + intro H. injection H as <- <- <-. rewrite V. auto.
    + destruct (sf_loop _ _ _ _ _) as [m'|] eqn:L; [|discriminate]. cbn [bind]. intro H. injection H as -> <- <-. split; [reflexivity|].
      pose proof (loop_nonzero _ _ _ _ _ _ L) as NZ. apply reqb_false in NZ. rewrite NZ. cbn [negb].
      pose proof (loop_again fuel v _ 0 0 _ _ L ltac:(f_equal; lia) ltac:(lia)) as A. rewrite Z.add_0_r in A. rewrite A. reflexivity.
  - destruct ((dexp e =? -1)%Z && ends0 e || (dexp e =? 0)%Z)%bool eqn:B.
    + intro H. injection H as <- <- <-. destruct (HW e) as [z Ez].
      { apply orb_true_iff in B as [B|B]; [apply andb_true_iff in B as [B1 B2]; right; split; [now apply Z.eqb_eq|exact B2]|left; now apply Z.eqb_eq]. }
      rewrite RS, Ez, Ztrunc_IZR, nearest_IZR, nearest_IZR. auto.
    + intro H. injection H as <- <- <-. rewrite round_dec_idem. auto.
Qed.
End Sig.
