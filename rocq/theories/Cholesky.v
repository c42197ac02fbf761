(** The Cholesky factorisation: existence for positive definite matrices, uniqueness, and what it says of the quadratic form. *)
From Coq Require Import Reals String Arith Bool Lra Lia List.
From Verif Require Import Py PyFloat PyFacts Params Likelihood Gp GpSpec PsdProofs LikeSpec CholSpec.
Import ListNotations.
Open Scope R_scope.

Lemma Sum_cut n m f : (m <= n)%nat -> (forall k, (m <= k < n)%nat -> f k = 0) -> Sum n f = Sum m f.
Proof.
  induction n as [|n IH]; intros H Z; [now replace m with 0%nat by lia|]. destruct (Nat.eq_dec m (S n)) as [->|]; [reflexivity|].
  rewrite Sum_S, Z by lia. rewrite IH by (try lia; intros; apply Z; lia). ring.
Qed.
Lemma Sum_swap n m f : Sum n (fun i => Sum m (fun j => f i j)) = Sum m (fun j => Sum n (fun i => f i j)).
Proof.
  induction n as [|n IH]; [rewrite Sum_0; symmetry; rewrite (Sum_ext m _ (fun _ => 0)) by reflexivity; apply Sum_const0|].
  rewrite Sum_S, IH, <- Sum_plus. apply Sum_ext. intros j _. now rewrite Sum_S.
Qed.
Lemma Sum_scal_r n a f : Sum n (fun i => f i * a) = Sum n f * a.
Proof. rewrite (Sum_ext n _ (fun i => a * f i)) by (intros; ring). rewrite Sum_scal. ring. Qed.

(** ** triangular systems *)
Fixpoint fsolve (n : nat) (L : nat -> nat -> R) (r : nat -> R) : nat -> R :=
  match n with
  | O => fun _ => 0
  | S m => let z := fsolve m L r in fun k => if Nat.eqb k m then (r m - Sum m (fun j => L m j * z j)) / L m m else z k
  end.
Lemma lower_le n m L : (m <= n)%nat -> lower n L -> lower m L.
Proof. intros H [A B]. split; intros; [apply A|apply B]; lia. Qed.
Lemma fsolve_ok n L r : lower n L -> solves n L (fsolve n L r) r.
Proof.
  induction n as [|n IH]; intros HL i Hi; [lia|]. pose proof (lower_le (S n) n L ltac:(lia) HL) as HL'. destruct HL as [HD HZ]. rewrite Sum_S.
  assert (Sum n (fun k => L i k * fsolve (S n) L r k) = Sum n (fun k => L i k * fsolve n L r k)) as E.
  { apply Sum_ext. intros k Hk. cbn [fsolve]. destruct (Nat.eqb_spec k n); [lia|reflexivity]. }
  rewrite E. cbn [fsolve]. rewrite Nat.eqb_refl. destruct (Nat.eq_dec i n) as [->|].
  - specialize (HD n ltac:(lia)). field. lra.
  - rewrite (IH HL' i) by lia. rewrite HZ by lia. ring.
Qed.
Lemma back_solve n L : lower n L -> forall y, exists c, forall k, (k < n)%nat -> Sum n (fun i => L i k * c i) = y k.
Proof.
  induction n as [|n IH]; intros HL y; [exists (fun _ => 0); intros; lia|]. pose proof (lower_le (S n) n L ltac:(lia) HL) as HL'. destruct HL as [HD HZ]. specialize (HD n ltac:(lia)) as Hn.
  set (cn := y n / L n n). destruct (IH HL' (fun k => y k - L n k * cn)) as [c Hc]. exists (fun i => if Nat.eqb i n then cn else c i). intros k Hk. rewrite Sum_S, Nat.eqb_refl.
  rewrite (Sum_ext n _ (fun i => L i k * c i)) by (intros i Hi; destruct (Nat.eqb_spec i n); [lia|reflexivity]).
  destruct (Nat.eq_dec k n) as [->|].
  - rewrite (Sum_ext n _ (fun _ => 0)) by (intros i Hi; rewrite HZ by lia; ring). rewrite Sum_const0. unfold cn. field. lra.
  - rewrite Hc by lia. ring.
Qed.
Lemma lower_unique n L z z' r : lower n L -> solves n L z r -> solves n L z' r -> forall k, (k < n)%nat -> z k = z' k.
Proof.
  intros [HD HZ] S1 S2. intro k. induction k as [k IH] using lt_wf_ind. intro Hk. pose proof (S1 k Hk) as A. pose proof (S2 k Hk) as B. rewrite <- B in A.
  rewrite (Sum_cut n (S k)) in A by (try lia; intros j Hj; rewrite HZ by lia; ring). rewrite (Sum_cut n (S k) (fun j => L k j * z' j)) in A by (try lia; intros j Hj; rewrite HZ by lia; ring).
  rewrite !Sum_S in A. rewrite (Sum_ext k _ (fun j => L k j * z' j)) in A by (intros j Hj; rewrite IH by lia; ring). specialize (HD k Hk).
  assert (L k k * (z k - z' k) = 0) as E by lra. apply Rmult_integral in E. lra.
Qed.

(** ** factors *)
Lemma factor_restrict n a L : factor (S n) a L -> factor n a L.
Proof.
  intros [HL HA]. split; [now apply (lower_le (S n)); [lia|]|]. intros i j Hi Hj. rewrite HA by lia. rewrite Sum_S. destruct HL as [_ HZ]. rewrite (HZ i n) by lia. ring.
Qed.
Lemma factor_row n a L : factor (S n) a L -> solves n L (L n) (fun i => a n i) /\ a n n = Sum n (fun k => L n k ^ 2) + L n n ^ 2.
Proof.
  intros [[HD HZ] HA]. split.
  - intros i Hi. rewrite (HA n i) by lia. rewrite Sum_S, (HZ i n) by lia. rewrite Rmult_0_r, Rplus_0_r. apply Sum_ext. intros; ring.
  - rewrite HA by lia. rewrite Sum_S. f_equal; [|ring]. apply Sum_ext. intros; ring.
Qed.
Theorem factor_unique n a L L' : factor n a L -> factor n a L' -> forall i j, (i < n)%nat -> (j < n)%nat -> L i j = L' i j.
Proof.
  revert L L'. induction n as [|n IH]; intros L L' F F' i j Hi Hj; [lia|]. pose proof (IH _ _ (factor_restrict _ _ _ F) (factor_restrict _ _ _ F')) as E.
  destruct (factor_row _ _ _ F) as [R1 D1]. destruct (factor_row _ _ _ F') as [R2 D2].
  assert (forall k, (k < n)%nat -> L n k = L' n k) as RW.
  { apply (lower_unique n L _ _ (fun i => a n i)); [apply factor_restrict in F; apply F|exact R1|]. intros x Hx. rewrite <- (R2 x Hx). apply Sum_ext. intros k Hk. now rewrite E. }
  destruct F as [[HD HZ] _]. destruct F' as [[HD' HZ'] _]. destruct (Nat.eq_dec i n) as [->|], (Nat.eq_dec j n) as [->|].
  - rewrite (Sum_ext n _ (fun k => L' n k ^ 2)) in D1 by (intros k Hk; now rewrite RW). specialize (HD n Hi). specialize (HD' n Hi). nra.
  - apply RW. lia.
  - rewrite HZ, HZ' by lia. reflexivity.
  - apply E; lia.
Qed.

(** row by row *)
Fixpoint chol (n : nat) (a : nat -> nat -> R) : option (nat -> nat -> R) :=
  match n with
  | O => Some (fun _ _ => 0)
  | S m =>
      match chol m a with
      | None => None
      | Some L =>
          let y := fsolve m L (fun i => a m i) in
          let d := a m m - Sum m (fun k => y k ^ 2) in
          if rltb 0 d then Some (fun i j => if Nat.eqb i m then (if Nat.eqb j m then sqrt d else if Nat.ltb j m then y j else 0) else if Nat.eqb j m then 0 else L i j) else None
      end
  end.
Lemma rltb_iff x y : rltb x y = true <-> x < y.
Proof. unfold rltb. destruct (Rlt_dec x y); split; intros; try easy; lra. Qed.
Lemma chol_ok n a : symmetric n a -> forall L, chol n a = Some L -> factor n a L.
Proof.
  induction n as [|n IH]; intros SY L E.
  - split; [split|]; intros; lia.
  - cbn [chol] in E. destruct (chol n a) as [L0|]; [|discriminate]. assert (factor n a L0) as F by (apply IH; [intros i j ? ?; apply SY; lia|reflexivity]).
    set (y := fsolve n L0 (fun i => a n i)) in *. set (d := a n n - Sum n (fun k => y k ^ 2)) in *. destruct (rltb 0 d) eqn:PD; [|discriminate]. apply rltb_iff in PD.
    destruct F as [HL HA]. pose proof (fsolve_ok n L0 (fun i => a n i) HL) as SV. fold y in SV. destruct HL as [HD HZ].
    injection E as <-. assert (0 < sqrt d) as SD by now apply sqrt_lt_R0.
    assert (sqrt d * sqrt d = d) as SQ by (apply sqrt_sqrt; lra).
    set (L := fun i j => if Nat.eqb i n then (if Nat.eqb j n then sqrt d else if Nat.ltb j n then y j else 0) else if Nat.eqb j n then 0 else L0 i j).
    assert (forall k, (k < n)%nat -> L n k = y k) as L1.
    { intros k Hk. unfold L. rewrite Nat.eqb_refl. destruct (Nat.eqb_spec k n); [lia|]. destruct (Nat.ltb_spec k n); [reflexivity|lia]. }
    assert (forall i k, (i < n)%nat -> (k < n)%nat -> L i k = L0 i k) as L2.
    { intros i k Hi Hk. unfold L. destruct (Nat.eqb_spec i n); [lia|]. destruct (Nat.eqb_spec k n); [lia|reflexivity]. }
    assert (forall i, (i < n)%nat -> L i n = 0) as L3.
    { intros i Hi. unfold L. destruct (Nat.eqb_spec i n); [lia|]. now rewrite Nat.eqb_refl. }
    assert (L n n = sqrt d) as L4 by (unfold L; now rewrite Nat.eqb_refl).
    clearbody L. split; [split|].
    + intros i Hi. destruct (Nat.eq_dec i n) as [->|]; [now rewrite L4|]. rewrite L2 by lia. apply HD. lia.
    + intros i j Hi Hj. destruct (Nat.eq_dec j n) as [->|]; [apply L3; lia|]. rewrite L2 by lia. apply HZ; lia.
    + intros i j Hi Hj. rewrite Sum_S. destruct (Nat.eq_dec i n) as [->|], (Nat.eq_dec j n) as [->|].
      * rewrite L4, SQ. rewrite (Sum_ext n _ (fun k => y k ^ 2)) by (intros k Hk; rewrite L1 by lia; ring). unfold d. ring.
      * rewrite (L3 j) by lia. rewrite Rmult_0_r, Rplus_0_r. rewrite <- (SV j) by lia. apply Sum_ext. intros k Hk. rewrite L1, L2 by lia. ring.
      * rewrite (L3 i) by lia. rewrite Rmult_0_l, Rplus_0_r. rewrite (SY i n) by lia. rewrite <- (SV i) by lia. apply Sum_ext. intros k Hk. rewrite L1, L2 by lia. ring.
      * rewrite (L3 i) by lia. rewrite Rmult_0_l, Rplus_0_r. rewrite HA by lia. apply Sum_ext. intros k Hk. rewrite !L2 by lia. reflexivity.
Qed.
Lemma chol_none n a : symmetric n a -> chol n a = None -> forall L, ~ factor n a L.
Proof.
  induction n as [|n IH]; intros SY E L F; [discriminate|]. assert (symmetric n a) as SY' by (intros i j ? ?; apply SY; lia). cbn [chol] in E. pose proof (factor_restrict _ _ _ F) as F'.
  destruct (chol n a) as [L0|] eqn:E0; [|exact (IH SY' eq_refl L F')]. pose proof (chol_ok n a SY' L0 E0) as F0.
  destruct (factor_row _ _ _ F) as [R1 D1]. pose proof (factor_unique _ _ _ _ F' F0) as EQ.
  assert (forall k, (k < n)%nat -> fsolve n L0 (fun i => a n i) k = L n k) as Y.
  { apply (lower_unique n L0 _ _ (fun i => a n i)); [apply F0|apply fsolve_ok, F0|]. intros i Hi. rewrite <- (R1 i Hi). apply Sum_ext. intros k Hk. now rewrite (EQ i k Hi Hk). }
  cbv zeta in E. rewrite (Sum_ext n (fun k => fsolve n L0 (fun i => a n i) k ^ 2) (fun k => L n k ^ 2)) in E by (intros k Hk; now rewrite Y). destruct F as [[HD _] _]. specialize (HD n ltac:(lia)).
  destruct (rltb 0 (a n n - Sum n (fun k => L n k ^ 2))) eqn:X; [discriminate|]. assert (rltb 0 (a n n - Sum n (fun k => L n k ^ 2)) = true) by (apply rltb_iff; rewrite D1; nra). congruence.
Qed.
(** quadratic form of L L^T *)
Lemma quad_factor n a L c : factor n a L -> quad n a c = Sum n (fun k => (Sum n (fun i => L i k * c i)) ^ 2).
Proof.
  intros [_ HA]. unfold quad. rewrite (Sum_ext n _ (fun i => Sum n (fun k => Sum n (fun j => (L i k * c i) * (L j k * c j))))).
  2:{ intros i Hi. rewrite Sum_swap. apply Sum_ext. intros j Hj. rewrite (HA i j Hi Hj), <- Sum_scal. apply Sum_ext. intros; ring. }
  rewrite Sum_swap. apply Sum_ext. intros k Hk. rewrite (Sum_ext n _ (fun i => L i k * c i * Sum n (fun j => L j k * c j))) by (intros; now rewrite Sum_scal).
  rewrite Sum_scal_r. ring.
Qed.
Theorem pd_factor n a : symmetric n a -> pd n a -> exists L, factor n a L.
Proof.
  intros SY PD. destruct (chol n a) as [L|] eqn:E; [exists L; now apply chol_ok|]. exfalso. revert SY PD E. induction n as [|n IH]; intros SY PD E; [discriminate|].
  assert (symmetric n a) as SY' by (intros i j ? ?; apply SY; lia).
  cbn [chol] in E. destruct (chol n a) as [L|] eqn:E0.
  2:{ apply IH; [exact SY'| |reflexivity]. intros c (i & Hi & Hc). specialize (PD (fun k => if Nat.eqb k n then 0 else c k)).
      assert (quad (S n) a (fun k => if Nat.eqb k n then 0 else c k) = quad n a c) as Q.
      { unfold quad. rewrite Sum_S. rewrite Nat.eqb_refl. rewrite (Sum_ext (S n) (fun j => 0 * _ * a n j) (fun _ => 0)) by (intros; ring). rewrite Sum_const0, Rplus_0_r.
        apply Sum_ext. intros x Hx. rewrite Sum_S, Nat.eqb_refl. destruct (Nat.eqb_spec x n); [lia|]. rewrite Rmult_0_r, Rmult_0_l, Rplus_0_r. apply Sum_ext. intros y Hy. destruct (Nat.eqb_spec y n); [lia|reflexivity]. }
      rewrite Q in PD. apply PD. exists i. split; [lia|]. destruct (Nat.eqb_spec i n); [lia|exact Hc]. }
  pose proof (chol_ok n a SY' L E0) as F. set (y := fsolve n L (fun i => a n i)) in *. pose proof (fsolve_ok n L (fun i => a n i) (proj1 F)) as SV. fold y in SV.
  destruct (rltb 0 (a n n - Sum n (fun k => y k ^ 2))) eqn:X; [discriminate|].
  destruct (back_solve n L (proj1 F) (fun k => - y k)) as [c Hc].
  specialize (PD (fun k => if Nat.eqb k n then 1 else c k)). assert (0 < quad (S n) a (fun k => if Nat.eqb k n then 1 else c k)) as P.
  { apply PD. exists n. split; [lia|]. rewrite Nat.eqb_refl. lra. }
  assert (quad (S n) a (fun k => if Nat.eqb k n then 1 else c k) = quad n a c + 2 * Sum n (fun i => c i * a n i) + a n n) as Q.
  { unfold quad. rewrite Sum_S. rewrite Nat.eqb_refl. rewrite Sum_S, Nat.eqb_refl.
    rewrite (Sum_ext n (fun i => 1 * (if Nat.eqb i n then 1 else c i) * a n i) (fun i => c i * a n i)) by (intros i Hi; destruct (Nat.eqb_spec i n); [lia|ring]).
    rewrite (Sum_ext n (fun i => Sum (S n) _) (fun i => Sum n (fun j => c i * c j * a i j) + c i * a n i)).
    - rewrite Sum_plus. ring.
    - intros i Hi. rewrite Sum_S, Nat.eqb_refl. destruct (Nat.eqb_spec i n); [lia|]. rewrite (SY i n) by lia. rewrite Rmult_1_r. f_equal. apply Sum_ext. intros j Hj. destruct (Nat.eqb_spec j n); [lia|reflexivity]. }
  rewrite Q, (quad_factor n a L c F) in P.
  rewrite (Sum_ext n (fun k => Sum n _ ^ 2) (fun k => y k ^ 2)) in P by (intros k Hk; rewrite Hc by lia; ring).
  assert (Sum n (fun i => c i * a n i) = - Sum n (fun k => y k ^ 2)) as Q2.
  { rewrite (Sum_ext n _ (fun i => Sum n (fun k => L i k * c i * y k))).
    - rewrite Sum_swap. rewrite (Sum_ext n _ (fun k => -1 * y k ^ 2)); [rewrite Sum_scal; ring|]. intros k Hk. rewrite Sum_scal_r, Hc by lia. ring.
    - intros i Hi. rewrite <- (SV i Hi), <- Sum_scal. apply Sum_ext. intros; ring. }
  rewrite Q2 in P. assert (rltb 0 (a n n - Sum n (fun k => y k ^ 2)) = true) by (apply rltb_iff; lra). congruence.
Qed.
Theorem factor_pd n a L : factor n a L -> pd n a.
Proof.
  intros F c (i & Hi & Hc). rewrite (quad_factor n a L c F). pose proof F as [HL _].
  destruct (Rle_lt_dec (Sum n (fun k => Sum n (fun i => L i k * c i) ^ 2)) 0) as [Z|]; [|assumption]. exfalso.
  assert (forall k, (k < n)%nat -> Sum n (fun i => L i k * c i) = 0) as ZK.
  { intros k Hk. destruct (Req_dec (Sum n (fun i => L i k * c i)) 0) as [|NZ]; [assumption|]. exfalso.
    assert (0 < Sum n (fun k => Sum n (fun i => L i k * c i) ^ 2)); [|lra]. apply (Sum_pos n _ k); [intros; apply pow2_ge_0|exact Hk|]. nra. }
  (* c vanishes from the end *)
  destruct HL as [HD HZ]. assert (forall d k, (k < n)%nat -> (n - k <= d)%nat -> c k = 0) as CZ.
  { induction d as [|d IH]; intros k Hk Hd; [lia|]. pose proof (ZK k Hk) as E.
    rewrite (Sum_ext n _ (fun i => if Nat.eqb k i then L k k * c k else 0)) in E.
    - rewrite (Sum_delta n k (fun _ => L k k * c k) Hk) in E. specialize (HD k Hk). apply Rmult_integral in E. lra.
    - intros j Hj. destruct (Nat.eqb_spec k j) as [->|]; [reflexivity|]. destruct (lt_dec j k); [rewrite HZ by lia; ring|]. rewrite (IH j) by lia. ring. }
  apply Hc. apply (CZ n); lia.
Qed.

(** r . x = |z|^2 for a x = r, L z = r *)
Lemma quad_value n a L x z r : factor n a L -> solves n a x r -> solves n L z r -> Sum n (fun i => r i * x i) = Sum n (fun i => z i ^ 2).
Proof.
  intros F SX SZ. set (w := fun k => Sum n (fun i => L i k * x i)).
  assert (solves n L w r) as SW.
  { intros i Hi. rewrite <- (SX i Hi). unfold w. destruct F as [_ HA]. rewrite (Sum_ext n _ (fun k => Sum n (fun j => L i k * (L j k * x j)))) by (intros; now rewrite Sum_scal).
    rewrite Sum_swap. apply Sum_ext. intros j Hj. rewrite (HA i j Hi Hj), <- Sum_scal_r. apply Sum_ext. intros; ring. }
  pose proof (lower_unique n L z w r (proj1 F) SZ SW) as E.
  rewrite (Sum_ext n _ (fun i => Sum n (fun k => L i k * x i * z k))).
  - rewrite Sum_swap. apply Sum_ext. intros k Hk. rewrite Sum_scal_r. fold (w k). rewrite (E k Hk). ring.
  - intros i Hi. rewrite <- (SZ i Hi), Rmult_comm, <- Sum_scal. apply Sum_ext. intros; ring.
Qed.
Lemma factor_solution n a L r : factor n a L -> exists x, solves n a x r.
Proof.
  intro F. destruct (back_solve n L (proj1 F) (fsolve n L r)) as [c Hc]. exists c. intros i Hi. rewrite <- (fsolve_ok n L r (proj1 F) i Hi). destruct F as [_ HA].
  rewrite (Sum_ext n (fun k => L i k * fsolve n L r k) (fun k => Sum n (fun j => L i k * (L j k * c j)))) by (intros k Hk; rewrite <- Hc by lia; now rewrite Sum_scal).
  rewrite Sum_swap. apply Sum_ext. intros j Hj. rewrite (HA i j Hi Hj), <- Sum_scal_r. apply Sum_ext. intros; ring.
Qed.

(** ** the log density *)
Lemma mvn_value n L z : lower n L -> mvn n L z = - (1 / 2) * (Sum n (fun i => z i ^ 2) + 2 * Sum n (fun i => ln (L i i)) + INR n * ln (2 * PI)).
Proof.
  intros [HD _]. unfold mvn. assert (0 < 2 * PI) as P2 by (pose proof PI_RGT_0; lra).
  rewrite (Sum_ext n _ (fun i => (- (1 / 2)) * z i ^ 2 + (- ln (L i i) + - (1 / 2) * ln (2 * PI)))).
  - rewrite !Sum_plus, Sum_scal. rewrite (Sum_ext n (fun i => - ln (L i i)) (fun i => -1 * ln (L i i))) by (intros; ring). rewrite Sum_scal.
    assert (forall c, Sum n (fun _ => c) = INR n * c) as SC by (intro c; clear; induction n as [|n IH]; [rewrite Sum_0; cbn; ring|rewrite Sum_S, IH, S_INR; ring]).
    rewrite SC. field.
  - intros i Hi. specialize (HD i Hi). unfold std_normal. assert (0 < sqrt (2 * PI)) as SP by now apply sqrt_lt_R0. assert (ln (sqrt (2 * PI)) = 1 / 2 * ln (2 * PI)) as LS.
    { rewrite <- (sqrt_sqrt (2 * PI)) at 2 by lra. rewrite ln_mult by assumption. field. }
    set (c := 2 * PI) in *. set (e := - (z i ^ 2 / 2)). change (ln (exp e * / sqrt c * / L i i) = - (1 / 2) * z i ^ 2 + (- ln (L i i) + - (1 / 2) * ln c)).
    pose proof (exp_pos e) as HE. pose proof (Rinv_0_lt_compat _ SP) as HS. pose proof (Rinv_0_lt_compat _ HD) as HI.
    rewrite (ln_mult (exp e * / sqrt c) (/ L i i)) by (try assumption; now apply Rmult_lt_0_compat). rewrite (ln_mult (exp e)) by assumption.
    rewrite !ln_Rinv by assumption. rewrite ln_exp, LS. unfold e. field.
Qed.
