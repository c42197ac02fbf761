(** Interval arithmetic on 63-bit machine integers, used to bound the Danby
    corrections of kepler.py:92-101 and kepler.c:38-46 over boxes of
    eccentricities and anomalies. A number is an integer multiple of 2^-24; an
    operation whose result may leave the range [-64, 64] answers [Top]. Nothing
    here models code: it is the computation behind a proof. *)
From Coq Require Import Reals Bool ZArith Uint63 Sint63 Lra Lia Psatz.
From Coquelicot Require Rcomplements.
From Verif Require Import KeplerProofs DanbyProofs.
Open Scope sint63_scope.

Definition one : int := 16777216.
Definition big : int := 1073741824.

Inductive iv := Top | Iv (lo hi : int).

Definition small (x : int) : bool := (- big <=? x) && (x <=? big).
Definition mk (l h : int) : iv := if small l && small h then Iv l h else Top.
Definition imax (a b : int) : int := if a <=? b then b else a.
Definition imin (a b : int) : int := if a <=? b then a else b.

(** product rounded down and up *)
Definition dn (x : int) : int := x >> 24.
Definition upw (x : int) : int := - ((- x) >> 24).

Definition add (a b : iv) : iv :=
  match a, b with Iv a1 a2, Iv b1 b2 => mk (a1 + b1) (a2 + b2) | _, _ => Top end.
Definition sub (a b : iv) : iv :=
  match a, b with Iv a1 a2, Iv b1 b2 => mk (a1 - b2) (a2 - b1) | _, _ => Top end.
Definition neg (a : iv) : iv :=
  match a with Iv a1 a2 => mk (- a2) (- a1) | Top => Top end.
Definition inter (a b : iv) : iv :=
  match a, b with Iv a1 a2, Iv b1 b2 => mk (imax a1 b1) (imin a2 b2) | _, _ => Top end.
Definition mul (a b : iv) : iv :=
  match a, b with
  | Iv a1 a2, Iv b1 b2 =>
      if 0 <=? a1 then
        if 0 <=? b1 then mk (dn (a1 * b1)) (upw (a2 * b2))
        else if b2 <=? 0 then mk (dn (a2 * b1)) (upw (a1 * b2))
        else mk (dn (a2 * b1)) (upw (a2 * b2))
      else if a2 <=? 0 then
        if 0 <=? b1 then mk (dn (a1 * b2)) (upw (a2 * b1))
        else if b2 <=? 0 then mk (dn (a2 * b2)) (upw (a1 * b1))
        else mk (dn (a1 * b2)) (upw (a1 * b1))
      else if 0 <=? b1 then mk (dn (a1 * b2)) (upw (a2 * b2))
        else if b2 <=? 0 then mk (dn (a2 * b1)) (upw (a1 * b1))
        else mk (imin (dn (a1 * b2)) (dn (a2 * b1))) (imax (upw (a1 * b1)) (upw (a2 * b2)))
  | _, _ => Top
  end.
Definition sq (a : iv) : iv :=
  match a with
  | Iv a1 a2 =>
      if 0 <=? a1 then mk (dn (a1 * a1)) (upw (a2 * a2))
      else if a2 <=? 0 then mk (dn (a2 * a2)) (upw (a1 * a1))
      else mk 0 (imax (upw (a1 * a1)) (upw (a2 * a2)))
  | Top => Top
  end.
(** division by a small positive integer *)
Definition cdiv (a : iv) (n : int) : iv :=
  match a with Iv a1 a2 => mk (a1 / n - 1) (a2 / n + 1) | Top => Top end.
Definition half (a : iv) : iv := cdiv a 2.
Definition pos (a : iv) : bool := match a with Iv a1 _ => 0 <? a1 | Top => false end.
(** division by a positive interval *)
Definition div (a b : iv) : iv :=
  match a, b with
  | Iv a1 a2, Iv b1 b2 =>
      if 0 <? b1 then
        mk (a1 * one / (if 0 <=? a1 then b2 else b1) - 1)
           (a2 * one / (if 0 <=? a2 then b1 else b2) + 1)
      else Top
  | _, _ => Top
  end.
Definition i1 : iv := Iv one one.
Definition pt (x : int) : iv := mk x x.

(** sine at a point of [0, 7/2]: seven terms after the first of its series *)
Definition sinp (a : int) : iv :=
  if (0 <=? a) && (a <=? 58720256) then
    let x := pt a in
    let x2 := sq x in
    let t n acc := sub i1 (cdiv (mul x2 acc) n) in
    match mul x (t 6 (t 20 (t 42 (t 72 (t 110 (t 156 (t 210 i1))))))) with
    | Iv l h => mk l (h + 100)
    | Top => Top
    end
  else Top.
Definition sini (i : iv) : iv :=
  match i with
  | Iv l h =>
      let m := (l + h) >> 1 in
      let w := imax (h - m) (m - l) in
      if small m then
        match (if 0 <=? m then sinp m else neg (sinp (- m))) with
        | Iv s1 s2 => mk (imax (- one) (s1 - w)) (imin one (s2 + w))
        | Top => Top
        end
      else Top
  | Top => Top
  end.
Definition cosi (i : iv) : iv :=
  let q := sq (sini (half i)) in sub i1 (add q q).

(** * Soundness *)
Local Open Scope R_scope.

Definition v (x : int) : R := IZR (to_Z x) / 16777216.
Definition tame (x : int) : Prop := (- 1073741824 <= to_Z x <= 1073741824)%Z.
(** [i] encloses [x] *)
Definition inside (i : iv) (x : R) : Prop :=
  match i with Top => True | Iv l h => tame l /\ tame h /\ v l <= x <= v h end.

Lemma bounds : to_Z min_int = (- 4611686018427387904)%Z /\ to_Z max_int = 4611686018427387903%Z.
Proof. split; reflexivity. Qed.

Lemma small_tame x : small x = true -> tame x.
Proof.
  unfold small, tame. intro H. apply andb_true_iff in H. destruct H as [H1 H2].
  apply leb_spec in H1. apply leb_spec in H2. split; [exact H1|exact H2].
Qed.

Ltac zb := destruct bounds as [Bmin Bmax]; unfold tame in *; try rewrite Bmin, Bmax.

Lemma z_add a b : (Z.abs (to_Z a) <= 2305843009213693951 -> Z.abs (to_Z b) <= 2305843009213693951 ->
  to_Z (a + b)%sint63 = to_Z a + to_Z b)%Z.
Proof. intros. apply to_Z_add. zb. lia. Qed.
Lemma z_sub a b : (Z.abs (to_Z a) <= 2305843009213693951 -> Z.abs (to_Z b) <= 2305843009213693951 ->
  to_Z (a - b)%sint63 = to_Z a - to_Z b)%Z.
Proof. intros. apply to_Z_sub. zb. lia. Qed.
Lemma z_opp a : (Z.abs (to_Z a) <= 2305843009213693951 -> to_Z (- a)%sint63 = - to_Z a)%Z.
Proof. intros. apply to_Z_opp. intro E. destruct bounds as [B _]. rewrite E, B in H. lia. Qed.
Lemma z_mul a b : tame a -> tame b -> to_Z (a * b)%sint63 = (to_Z a * to_Z b)%Z.
Proof. intros. apply to_Z_mul. zb. nia. Qed.

Lemma v_add a b : tame a -> tame b -> v (a + b) = v a + v b.
Proof. intros. unfold v. rewrite z_add, plus_IZR by (zb; lia). field. Qed.
Lemma v_sub a b : tame a -> tame b -> v (a - b) = v a - v b.
Proof. intros. unfold v. rewrite z_sub, minus_IZR by (zb; lia). field. Qed.
Lemma v_opp a : tame a -> v (- a) = - v a.
Proof. intros. unfold v. rewrite z_opp, opp_IZR by (zb; lia). field. Qed.
Lemma tame_opp a : tame a -> tame (- a).
Proof. intro H. unfold tame in *. rewrite z_opp by (zb; lia). lia. Qed.
Lemma tame_0 : tame 0.
Proof. unfold tame. rewrite to_Z_0. lia. Qed.
Lemma v_0 : v 0 = 0.
Proof. unfold v. rewrite to_Z_0. lra. Qed.
Lemma v_le a b : (a <=? b)%sint63 = true -> v a <= v b.
Proof.
  intro H. apply leb_spec in H. unfold v. apply IZR_le in H. lra.
Qed.
Lemma v_gt a b : (a <=? b)%sint63 = false -> v b < v a.
Proof.
  intro H. destruct (Z_lt_le_dec (to_Z b) (to_Z a)) as [L|L].
  - unfold v. apply IZR_lt in L. lra.
  - apply leb_spec in L. rewrite L in H. discriminate.
Qed.
Lemma v_lt a b : (a <? b)%sint63 = true -> v a < v b.
Proof. intro H. apply ltb_spec in H. unfold v. apply IZR_lt in H. lra. Qed.

Lemma imax_l a b : v a <= v (imax a b).
Proof. unfold imax. destruct (a <=? b)%sint63 eqn:E; [apply v_le; auto|lra]. Qed.
Lemma imax_r a b : v b <= v (imax a b).
Proof. unfold imax. destruct (a <=? b)%sint63 eqn:E; [lra|apply Rlt_le, v_gt; auto]. Qed.
Lemma imin_l a b : v (imin a b) <= v a.
Proof. unfold imin. destruct (a <=? b)%sint63 eqn:E; [lra|apply Rlt_le, v_gt; auto]. Qed.
Lemma imin_r a b : v (imin a b) <= v b.
Proof. unfold imin. destruct (a <=? b)%sint63 eqn:E; [apply v_le; auto|lra]. Qed.
Lemma imax_case a b (P : int -> Prop) : P a -> P b -> P (imax a b).
Proof. unfold imax. destruct (a <=? b)%sint63; auto. Qed.
Lemma imin_case a b (P : int -> Prop) : P a -> P b -> P (imin a b).
Proof. unfold imin. destruct (a <=? b)%sint63; auto. Qed.

Lemma mk_inside l h x : v l <= x <= v h -> inside (mk l h) x.
Proof.
  intro H. unfold mk. destruct (small l) eqn:L; [|exact I]. destruct (small h) eqn:E; [|exact I].
  cbn. auto using small_tame.
Qed.

Lemma add_inside a b x y : inside a x -> inside b y -> inside (add a b) (x + y).
Proof.
  destruct a as [|a1 a2], b as [|b1 b2]; cbn; auto. intros (A1 & A2 & HA) (B1 & B2 & HB).
  apply mk_inside. rewrite !v_add by auto. lra.
Qed.
Lemma sub_inside a b x y : inside a x -> inside b y -> inside (sub a b) (x - y).
Proof.
  destruct a as [|a1 a2], b as [|b1 b2]; cbn; auto. intros (A1 & A2 & HA) (B1 & B2 & HB).
  apply mk_inside. rewrite !v_sub by auto. lra.
Qed.
Lemma neg_inside a x : inside a x -> inside (neg a) (- x).
Proof.
  destruct a as [|a1 a2]; cbn; auto. intros (A1 & A2 & HA).
  apply mk_inside. rewrite !v_opp by auto. lra.
Qed.
Lemma inter_inside a b x : inside a x -> inside b x -> inside (inter a b) x.
Proof.
  destruct a as [|a1 a2], b as [|b1 b2]; cbn; auto. intros (A1 & A2 & HA) (B1 & B2 & HB).
  apply mk_inside. split; [apply (imax_case _ _ (fun z => v z <= x)); tauto|
                           apply (imin_case _ _ (fun z => x <= v z)); tauto].
Qed.

Lemma dn_mul a b : tame a -> tame b -> v (dn (a * b)) <= v a * v b.
Proof.
  intros A B. unfold v, dn. rewrite asr_spec, z_mul by auto.
  change (2 ^ to_Z 24)%Z with 16777216%Z.
  pose proof (Z.mul_div_le (to_Z a * to_Z b) 16777216 ltac:(lia)) as H.
  apply IZR_le in H. rewrite !mult_IZR in H. lra.
Qed.
Lemma up_mul a b : tame a -> tame b -> v a * v b <= v (upw (a * b)).
Proof.
  intros A B. unfold v, upw.
  assert (M : to_Z (a * b) = (to_Z a * to_Z b)%Z) by (apply z_mul; auto).
  assert (K : (Z.abs (to_Z a * to_Z b) <= 1152921504606846976)%Z) by (unfold tame in *; nia).
  assert (O : to_Z (- (a * b)) = (- (to_Z a * to_Z b))%Z) by (rewrite z_opp; [lia|lia]).
  assert (D : to_Z ((- (a * b)) >> 24) = (- (to_Z a * to_Z b) / 16777216)%Z)
    by (rewrite asr_spec, O; reflexivity).
  pose proof (Z.mul_div_le (- (to_Z a * to_Z b)) 16777216 ltac:(lia)) as H.
  pose proof (Z.mul_succ_div_gt (- (to_Z a * to_Z b)) 16777216 ltac:(lia)) as H2.
  rewrite z_opp, D by (rewrite D; lia).
  apply IZR_le in H. rewrite !mult_IZR, opp_IZR, mult_IZR in H. rewrite opp_IZR. lra.
Qed.

Lemma le0 a : (0 <=? a)%sint63 = true -> 0 <= v a.
Proof. intro H. apply v_le in H. rewrite v_0 in H. exact H. Qed.
Lemma gt0 a : (0 <=? a)%sint63 = false -> v a < 0.
Proof. intro H. apply v_gt in H. rewrite v_0 in H. exact H. Qed.
Lemma ge0 a : (a <=? 0)%sint63 = true -> v a <= 0.
Proof. intro H. apply v_le in H. rewrite v_0 in H. exact H. Qed.
Lemma lt0 a : (a <=? 0)%sint63 = false -> 0 < v a.
Proof. intro H. apply v_gt in H. rewrite v_0 in H. exact H. Qed.
Lemma plt0 a : (0 <? a)%sint63 = true -> 0 < v a.
Proof. intro H. apply v_lt in H. rewrite v_0 in H. exact H. Qed.

Lemma mul_inside a b x y : inside a x -> inside b y -> inside (mul a b) (x * y).
Proof.
  destruct a as [|a1 a2], b as [|b1 b2]; cbn [add sub mul div inter inside]; auto. intros (A1 & A2 & HA) (B1 & B2 & HB).
  assert (P11 : 0 <= (x - v a1) * (y - v b1)) by (apply Rmult_le_pos; lra).
  assert (P12 : 0 <= (x - v a1) * (v b2 - y)) by (apply Rmult_le_pos; lra).
  assert (P21 : 0 <= (v a2 - x) * (y - v b1)) by (apply Rmult_le_pos; lra).
  assert (P22 : 0 <= (v a2 - x) * (v b2 - y)) by (apply Rmult_le_pos; lra).
  destruct (0 <=? a1)%sint63 eqn:Ha1;
    [apply le0 in Ha1|apply gt0 in Ha1; destruct (a2 <=? 0)%sint63 eqn:Ha2; [apply ge0 in Ha2|apply lt0 in Ha2]];
    (destruct (0 <=? b1)%sint63 eqn:Hb1;
      [apply le0 in Hb1|apply gt0 in Hb1; destruct (b2 <=? 0)%sint63 eqn:Hb2; [apply ge0 in Hb2|apply lt0 in Hb2]]);
    apply mk_inside;
    try (assert (0 <= x) by lra); try (assert (x <= 0) by lra);
    try (assert (0 <= y) by lra); try (assert (y <= 0) by lra);
    try (split; [eapply Rle_trans; [apply dn_mul; assumption|]|
                 eapply Rle_trans; [|apply up_mul; assumption]]; nra).
  split.
  - pose proof (imin_l (dn (a1 * b2)) (dn (a2 * b1))) as L1. pose proof (imin_r (dn (a1 * b2)) (dn (a2 * b1))) as L2.
    pose proof (dn_mul a1 b2 A1 B2) as D12. pose proof (dn_mul a2 b1 A2 B1) as D21.
    destruct (Rle_dec 0 x).
    + assert (0 <= x * (y - v b1)) by (apply Rmult_le_pos; lra).
      assert (0 <= (v a2 - x) * (- v b1)) by (apply Rmult_le_pos; lra). lra.
    + assert (0 <= (- x) * (v b2 - y)) by (apply Rmult_le_pos; lra).
      assert (0 <= (x - v a1) * v b2) by (apply Rmult_le_pos; lra). lra.
  - pose proof (imax_l (upw (a1 * b1)) (upw (a2 * b2))) as L1. pose proof (imax_r (upw (a1 * b1)) (upw (a2 * b2))) as L2.
    pose proof (up_mul a1 b1 A1 B1) as U11. pose proof (up_mul a2 b2 A2 B2) as U22.
    destruct (Rle_dec 0 x).
    + assert (0 <= x * (v b2 - y)) by (apply Rmult_le_pos; lra).
      assert (0 <= (v a2 - x) * v b2) by (apply Rmult_le_pos; lra). lra.
    + assert (0 <= (- x) * (y - v b1)) by (apply Rmult_le_pos; lra).
      assert (0 <= (x - v a1) * (- v b1)) by (apply Rmult_le_pos; lra). lra.
Qed.

Lemma sq_inside a x : inside a x -> inside (sq a) (x * x).
Proof.
  destruct a as [|a1 a2]; cbn [sq cdiv inside]; auto. intros (A1 & A2 & HA).
  pose proof (dn_mul a1 a1 A1 A1) as D11. pose proof (dn_mul a2 a2 A2 A2) as D22.
  pose proof (up_mul a1 a1 A1 A1) as U11. pose proof (up_mul a2 a2 A2 A2) as U22.
  destruct (0 <=? a1)%sint63 eqn:Ha1; [apply le0 in Ha1; apply mk_inside; nra|].
  apply gt0 in Ha1. destruct (a2 <=? 0)%sint63 eqn:Ha2; [apply ge0 in Ha2; apply mk_inside; nra|].
  apply lt0 in Ha2. apply mk_inside. rewrite v_0.
  pose proof (imax_l (upw (a1 * a1)) (upw (a2 * a2))). pose proof (imax_r (upw (a1 * a1)) (upw (a2 * a2))).
  split; [nra|]. destruct (Rle_dec 0 x); nra.
Qed.

Lemma quot_near a n : (0 < n)%Z -> IZR (a ÷ n) - 1 <= IZR a / IZR n <= IZR (a ÷ n) + 1.
Proof.
  intro H. pose proof (Z.quot_rem' a n) as E.
  assert (B : (Z.abs (Z.rem a n) < n)%Z).
  { pose proof (Z.rem_bound_abs a n ltac:(lia)). lia. }
  assert (N : 0 < IZR n) by (apply IZR_lt; lia).
  assert (E' : IZR a / IZR n = IZR (a ÷ n) + IZR (Z.rem a n) / IZR n).
  { rewrite E at 1. rewrite plus_IZR, mult_IZR. field. lra. }
  assert (R : -1 <= IZR (Z.rem a n) / IZR n <= 1).
  { assert (L1 : - IZR n <= IZR (Z.rem a n)) by (rewrite <- opp_IZR; apply IZR_le; lia).
    assert (L2 : IZR (Z.rem a n) <= IZR n) by (apply IZR_le; lia).
    assert (D : IZR (Z.rem a n) / IZR n * IZR n = IZR (Z.rem a n)) by (field; lra).
    nra. }
  lra.
Qed.

Lemma z_pred a : (Z.abs (to_Z a) <= 1152921504606846976)%Z ->
  IZR (to_Z (a - 1)) = IZR (to_Z a) - 1 /\ IZR (to_Z (a + 1)) = IZR (to_Z a) + 1.
Proof.
  intro H. rewrite z_sub, z_add, minus_IZR, plus_IZR by (change (to_Z 1) with 1%Z; lia). auto.
Qed.

Lemma quot_abs a n : (0 < n)%Z -> (Z.abs (a ÷ n) <= Z.abs a)%Z.
Proof.
  intro H. rewrite <- Z.quot_abs by lia. rewrite (Z.abs_eq n) by lia.
  destruct (Z.eq_dec n 1) as [->|N]; [rewrite Z.quot_1_r; lia|].
  destruct (Z.eq_dec a 0) as [->|A]; [rewrite Z.quot_0_l; lia|].
  pose proof (Z.quot_lt (Z.abs a) n). lia.
Qed.

(** quotient of a machine integer by a positive one, within one unit *)
Lemma near_div a n : (Z.abs (to_Z a) <= 1152921504606846976)%Z -> (0 < to_Z n)%Z ->
  IZR (to_Z (a / n - 1)) <= IZR (to_Z a) / IZR (to_Z n) <= IZR (to_Z (a / n + 1)).
Proof.
  intros A N.
  assert (Q : to_Z (a / n) = (to_Z a ÷ to_Z n)%Z) by (apply div_spec; right; lia).
  pose proof (quot_abs (to_Z a) (to_Z n) N) as B. rewrite <- Q in B.
  destruct (z_pred (a / n) ltac:(lia)) as [-> ->].
  pose proof (quot_near (to_Z a) (to_Z n) N) as H. rewrite Q. lra.
Qed.

Lemma cdiv_inside a n x : (0 < to_Z n)%Z -> inside a x -> inside (cdiv a n) (x / IZR (to_Z n)).
Proof.
  intro N. destruct a as [|a1 a2]; cbn [sq cdiv inside]; auto. intros (A1 & A2 & HA). apply mk_inside.
  assert (N' : 0 < / IZR (to_Z n)) by (apply Rinv_0_lt_compat, IZR_lt; lia).
  pose proof (near_div a1 n ltac:(unfold tame in *; lia) N) as H1.
  pose proof (near_div a2 n ltac:(unfold tame in *; lia) N) as H2.
  unfold v in *. unfold Rdiv in *. nra.
Qed.

Lemma half_inside a x : inside a x -> inside (half a) (x / 2).
Proof. intro H. apply (cdiv_inside a 2 x); [reflexivity|exact H]. Qed.

Lemma one_inside : inside i1 1.
Proof. cbn. unfold tame, v. change (to_Z one) with 16777216%Z. repeat split; try lia; lra. Qed.

Lemma pos_inside a x : pos a = true -> inside a x -> 0 < x.
Proof.
  destruct a as [|a1 a2]; cbn; [discriminate|]. intros H (A1 & A2 & HA). apply plt0 in H. lra.
Qed.

Lemma div_lo a b : tame a -> tame b -> 0 < v b -> v (a * one / b - 1) <= v a / v b.
Proof.
  intros A B P.
  assert (O : tame one) by (unfold tame; change (to_Z one) with 16777216%Z; lia).
  assert (BP : (0 < to_Z b)%Z) by (apply lt_IZR; unfold v in P; lra).
  assert (M : to_Z (a * one) = (to_Z a * 16777216)%Z) by (rewrite z_mul by auto; reflexivity).
  assert (K : (Z.abs (to_Z (a * one)) <= 1152921504606846976)%Z) by (rewrite M; unfold tame in *; lia).
  destruct (near_div (a * one) b K BP) as [H _]. rewrite M, mult_IZR in H.
  assert (B' : 0 < IZR (to_Z b)) by (apply IZR_lt; lia).
  unfold v. replace (IZR (to_Z a) / 16777216 / (IZR (to_Z b) / 16777216))
    with (IZR (to_Z a) * 16777216 / IZR (to_Z b) / 16777216) by (field; lra).
  lra.
Qed.
Lemma div_hi a b : tame a -> tame b -> 0 < v b -> v a / v b <= v (a * one / b + 1).
Proof.
  intros A B P.
  assert (O : tame one) by (unfold tame; change (to_Z one) with 16777216%Z; lia).
  assert (BP : (0 < to_Z b)%Z) by (apply lt_IZR; unfold v in P; lra).
  assert (M : to_Z (a * one) = (to_Z a * 16777216)%Z) by (rewrite z_mul by auto; reflexivity).
  assert (K : (Z.abs (to_Z (a * one)) <= 1152921504606846976)%Z) by (rewrite M; unfold tame in *; lia).
  destruct (near_div (a * one) b K BP) as [_ H]. rewrite M, mult_IZR in H.
  assert (B' : 0 < IZR (to_Z b)) by (apply IZR_lt; lia).
  unfold v. replace (IZR (to_Z a) / 16777216 / (IZR (to_Z b) / 16777216))
    with (IZR (to_Z a) * 16777216 / IZR (to_Z b) / 16777216) by (field; lra).
  lra.
Qed.

Lemma div_inside a b x y : inside a x -> inside b y -> inside (div a b) (x / y).
Proof.
  destruct a as [|a1 a2], b as [|b1 b2]; cbn [add sub mul div inter inside]; auto. intros (A1 & A2 & HA) (B1 & B2 & HB).
  destruct (0 <? b1)%sint63 eqn:P; [|exact I]. apply plt0 in P. apply mk_inside.
  assert (IY : 0 < / y) by (apply Rinv_0_lt_compat; lra).
  assert (I1 : / y <= / v b1) by (apply Rinv_le_contravar; lra).
  assert (I2 : / v b2 <= / y) by (apply Rinv_le_contravar; lra).
  assert (I3 : 0 < / v b2) by (apply Rinv_0_lt_compat; lra).
  split.
  - destruct (0 <=? a1)%sint63 eqn:Z1; [apply le0 in Z1|apply gt0 in Z1].
    + eapply Rle_trans; [apply div_lo; auto; lra|]. unfold Rdiv. nra.
    + eapply Rle_trans; [apply div_lo; auto; lra|]. unfold Rdiv. nra.
  - destruct (0 <=? a2)%sint63 eqn:Z1; [apply le0 in Z1|apply gt0 in Z1].
    + eapply Rle_trans; [|apply div_hi; auto; lra]. unfold Rdiv. nra.
    + eapply Rle_trans; [|apply div_hi; auto; lra]. unfold Rdiv. nra.
Qed.

Lemma pt_inside x : inside (pt x) (v x).
Proof. apply mk_inside. lra. Qed.

(** ** Sine *)
Lemma fact_step n k k' : INR (fact n) = IZR k -> (k * Z.of_nat (S n))%Z = k' -> INR (fact (S n)) = IZR k'.
Proof. intros H <-. rewrite fact_simpl, mult_INR, H, mult_IZR, <- INR_IZR_INZ. ring. Qed.

Lemma sin_series x : 0 <= x <= 4 ->
  let p := x * (1 - x * x * (1 - x * x * (1 - x * x * (1 - x * x * (1 - x * x *
           (1 - x * x * (1 - x * x * 1 / 210) / 156) / 110) / 72) / 42) / 20) / 6) in
  p <= sin x <= p + x ^ 17 / 355687428096000.
Proof.
  intros H p. destruct (pre_sin_bound x 3 (proj1 H) (proj2 H)) as [L U].
  pose proof (eq_refl : INR (fact 1) = IZR 1) as F1.
  assert (F2 : INR (fact 2) = 2) by (exact (fact_step _ _ _ F1 eq_refl)).
  assert (F3 : INR (fact 3) = 6) by (exact (fact_step _ _ _ F2 eq_refl)).
  assert (F4 : INR (fact 4) = 24) by (exact (fact_step _ _ _ F3 eq_refl)).
  assert (F5 : INR (fact 5) = 120) by (exact (fact_step _ _ _ F4 eq_refl)).
  assert (F6 : INR (fact 6) = 720) by (exact (fact_step _ _ _ F5 eq_refl)).
  assert (F7 : INR (fact 7) = 5040) by (exact (fact_step _ _ _ F6 eq_refl)).
  assert (F8 : INR (fact 8) = 40320) by (exact (fact_step _ _ _ F7 eq_refl)).
  assert (F9 : INR (fact 9) = 362880) by (exact (fact_step _ _ _ F8 eq_refl)).
  assert (F10 : INR (fact 10) = 3628800) by (exact (fact_step _ _ _ F9 eq_refl)).
  assert (F11 : INR (fact 11) = 39916800) by (exact (fact_step _ _ _ F10 eq_refl)).
  assert (F12 : INR (fact 12) = 479001600) by (exact (fact_step _ _ _ F11 eq_refl)).
  assert (F13 : INR (fact 13) = 6227020800) by (exact (fact_step _ _ _ F12 eq_refl)).
  assert (F14 : INR (fact 14) = 87178291200) by (exact (fact_step _ _ _ F13 eq_refl)).
  assert (F15 : INR (fact 15) = 1307674368000) by (exact (fact_step _ _ _ F14 eq_refl)).
  assert (F16 : INR (fact 16) = 20922789888000) by (exact (fact_step _ _ _ F15 eq_refl)).
  assert (F17 : INR (fact 17) = 355687428096000) by (exact (fact_step _ _ _ F16 eq_refl)).
  assert (E7 : sin_approx x (2 * 3 + 1) = p).
  { unfold sin_approx. change (2 * 3 + 1)%nat with 7%nat. cbn [sum_f_R0]. unfold sin_term.
    change (2 * 0 + 1)%nat with 1%nat. change (2 * 1 + 1)%nat with 3%nat. change (2 * 2 + 1)%nat with 5%nat.
    change (2 * 3 + 1)%nat with 7%nat. change (2 * 4 + 1)%nat with 9%nat. change (2 * 5 + 1)%nat with 11%nat.
    change (2 * 6 + 1)%nat with 13%nat. change (2 * 7 + 1)%nat with 15%nat.
    rewrite F1, F3, F5, F7, F9, F11, F13, F15.
    unfold p. cbn [pow]. field. }
  assert (E8 : sin_approx x (2 * (3 + 1)) = p + x ^ 17 / 355687428096000).
  { rewrite <- E7. unfold sin_approx. change (2 * (3 + 1))%nat with (S (2 * 3 + 1))%nat.
    rewrite tech5. f_equal. unfold sin_term. change (2 * S (2 * 3 + 1) + 1)%nat with 17%nat.
    rewrite F17.
    change (S (2 * 3 + 1))%nat with 8%nat. cbn [pow]. field. }
  rewrite E7 in L. rewrite E8 in U. split; assumption.
Qed.

Lemma sinp_inside a : inside (sinp a) (sin (v a)).
Proof.
  unfold sinp. destruct (0 <=? a)%sint63 eqn:L; [|exact I].
  destruct (a <=? 58720256)%sint63 eqn:U; [|exact I]. cbn [andb].
  apply le0 in L. apply v_le in U. change (v 58720256) with (58720256 / 16777216) in U.
  set (t := fun (n : int) (acc : iv) => sub i1 (cdiv (mul (sq (pt a)) acc) n)).
  assert (T : forall n acc y, (0 < to_Z n)%Z -> inside acc y ->
              inside (t n acc) (1 - v a * v a * y / IZR (to_Z n))).
  { intros n acc y N Y. apply sub_inside; [apply one_inside|]. apply cdiv_inside; auto.
    apply mul_inside; auto. apply sq_inside, pt_inside. }
  destruct (sin_series (v a)) as [S1 S2]; [lra|].
  match type of S1 with ?p <= _ => set (P := p) in * end.
  assert (IN : inside (mul (pt a) (t 6 (t 20 (t 42 (t 72 (t 110 (t 156 (t 210 i1)))))))%sint63) P).
  { apply mul_inside; [apply pt_inside|].
    apply (T 6%sint63); [reflexivity|]. apply (T 20%sint63); [reflexivity|].
    apply (T 42%sint63); [reflexivity|]. apply (T 72%sint63); [reflexivity|].
    apply (T 110%sint63); [reflexivity|]. apply (T 156%sint63); [reflexivity|].
    apply (T 210%sint63); [reflexivity|]. apply one_inside. }
  change (inside (match mul (pt a) (t 6 (t 20 (t 42 (t 72 (t 110 (t 156 (t 210 i1)))))))%sint63 with
                  | Iv l h => mk l (h + 100) | Top => Top end) (sin (v a))).
  destruct (mul (pt a) _) as [|l h]; [exact I|]. destruct IN as (A1 & A2 & HA).
  apply mk_inside. rewrite v_add; auto.
  2:{ unfold tame. change (to_Z 100) with 100%Z. lia. }
  change (v 100) with (100 / 16777216).
  assert (W : (v a) ^ 17 <= (7 / 2) ^ 17) by (apply pow_incr; lra).
  lra.
Qed.

Lemma sini_inside i x : inside i x -> inside (sini i) (sin x).
Proof.
  destruct i as [|l h]; [auto|]. intros (L & H & X). unfold sini.
  set (m := ((l + h) >> 1)%sint63). destruct (small m) eqn:SM; [|exact I]. apply small_tame in SM.
  set (w := imax (h - m) (m - l)).
  assert (HW : Rabs (x - v m) <= v w).
  { apply Rabs_le. pose proof (imax_l (h - m) (m - l)) as W1. pose proof (imax_r (h - m) (m - l)) as W2.
    fold w in W1, W2. rewrite v_sub in W1, W2 by auto. lra. }
  assert (TW : (Z.abs (to_Z w) <= 2147483648)%Z).
  { unfold w. apply (imax_case _ _ (fun z => (Z.abs (to_Z z) <= 2147483648)%Z));
      rewrite z_sub; unfold tame in *; lia. }
  assert (HS : inside (if (0 <=? m)%sint63 then sinp m else neg (sinp (- m))) (sin (v m))).
  { destruct (0 <=? m)%sint63; [apply sinp_inside|].
    replace (sin (v m)) with (- sin (v (- m))) by (rewrite v_opp, sin_neg by auto; ring).
    apply neg_inside, sinp_inside. }
  destruct (if (0 <=? m)%sint63 then sinp m else neg (sinp (- m))) as [|s1 s2]; [exact I|].
  destruct HS as (T1 & T2 & HS). apply mk_inside.
  pose proof (SIN_bound x) as SB.
  pose proof (sin_lipschitz (v m) x) as LP.
  assert (LQ : Rabs (sin x - sin (v m)) <= v w) by lra.
  apply Rcomplements.Rabs_le_between in LQ.
  assert (V1 : v (s1 - w) = v s1 - v w).
  { unfold v. rewrite z_sub, minus_IZR by (unfold tame in *; lia). field. }
  assert (V2 : v (s2 + w) = v s2 + v w).
  { unfold v. rewrite z_add, plus_IZR by (unfold tame in *; lia). field. }
  assert (O1 : v one = 1) by (unfold v; change (to_Z one) with 16777216%Z; lra).
  assert (O2 : v (- one) = - (1)) by (unfold v; change (to_Z (- one)) with (-16777216)%Z; lra).
  split; [apply (imax_case _ _ (fun z => v z <= sin x)); lra|
          apply (imin_case _ _ (fun z => sin x <= v z)); lra].
Qed.

Lemma cosi_inside i x : inside i x -> inside (cosi i) (cos x).
Proof.
  intro H. unfold cosi.
  replace (cos x) with (1 - (sin (x / 2) * sin (x / 2) + sin (x / 2) * sin (x / 2))).
  2:{ replace x with (2 * (x / 2)) at 5 by field. rewrite cos_2a_sin. ring. }
  assert (Q : inside (sq (sini (half i))) (sin (x / 2) * sin (x / 2)))
    by (apply sq_inside, sini_inside, half_inside, H).
  apply sub_inside; [apply one_inside|]. apply add_inside; exact Q.
Qed.
