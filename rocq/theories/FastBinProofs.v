(** Proofs about fastbin (C71). *)
From Coq Require Import ZArith Reals Arith Bool Lra Lia Permutation Sorted List.
From Flocq Require Import Core.Raux.
From Verif Require Import Py PyFloat PyFacts Stats StatsProofs FastBin FastBinSpec.
Import ListNotations.
Open Scope R_scope.

Lemma range_ok xs : xs <> [] -> range_of xs (fst (hist_range xs)) (snd (hist_range xs)).
Proof.
  intro N. assert (0 < length xs)%nat as L by (destruct xs; [easy|cbn; lia]). pose proof (sort_ordered xs) as SO. pose proof (sort_length xs) as SL.
  assert (In (vmin xs) xs) as I1 by (eapply Permutation_in; [apply sort_perm|]; apply nth_In; lia).
  assert (In (vmax xs) xs) as I2 by (eapply Permutation_in; [apply sort_perm|]; apply nth_In; lia).
  assert (forall x, In x xs -> vmin xs <= x <= vmax xs) as B.
  { intros x Hx. apply (Permutation_in x (Permutation_sym (sort_perm xs))) in Hx. apply In_nth_R in Hx as (i & Hi & <-). unfold vmin, vmax. split; apply ordered_nth; auto; lia. }
  unfold hist_range. destruct (reqb (vmin xs) (vmax xs)) eqn:E.
  - apply reqb_true in E. right. exists (vmin xs). cbn [fst snd]. split; [reflexivity|]. split; [now rewrite E|]. split; [exact N|]. intros x Hx. specialize (B x Hx). lra.
  - left. cbn [fst snd]. split; [exact I1|]. split; [exact I2|]. split; [|exact B]. specialize (B (vmax xs) I2). destruct (Req_dec (vmin xs) (vmax xs)) as [Q|]; [|lra]. apply reqb_true in Q. congruence.
Qed.
Lemma range_lt xs lo hi : range_of xs lo hi -> lo < hi.
Proof. intros [(_ & _ & H & _)|(a & -> & -> & _)]; lra. Qed.
Lemma range_in xs lo hi x : range_of xs lo hi -> In x xs -> lo <= x <= hi.
Proof. intros [(_ & _ & _ & H)|(a & -> & -> & _ & H)] Hx; [auto|]. rewrite (H x Hx). lra. Qed.

Lemma edge_end lo hi n : (0 < n)%nat -> fb_edge (lo, hi) n n = hi.
Proof. intro H. unfold fb_edge. cbn. apply lt_0_INR in H. field. lra. Qed.
Lemma fb_in_spec lo hi n i x : (i < n)%nat -> lo < hi -> fb_in (lo, hi) n i x = true <-> in_interval lo hi n i x.
Proof.
  intros Hi Hl. assert (0 < INR n) as Hn by (apply lt_0_INR; lia). unfold fb_in, in_interval. rewrite edge_end by lia. rewrite andb_true_iff, rleb_true. unfold fb_edge. cbn [fst snd]. apply and_iff_compat_l.
  destruct (Nat.eqb_spec (S i) n) as [E|NE].
  - rewrite rleb_true. rewrite E. replace (lo + INR n * ((hi - lo) / INR n)) with hi by (field; lra). split; [|lra]. intro H. destruct (Req_dec x hi); [now right|left; lra].
  - unfold rltb. destruct (Rlt_dec x (lo + INR (S i) * ((hi - lo) / INR n))); [tauto|]. split; [discriminate|]. intros [?|[? _]]; [contradiction|easy].
Qed.
Lemma picks_filter {A} (P : A -> Prop) f l : (forall x, f x = true <-> P x) -> picks P l (filter f l).
Proof. intro H. induction l as [|x l IH]; [constructor|]. cbn. destruct (f x) eqn:E; [apply picks_yes; [now apply H|exact IH]|]. apply picks_no; [rewrite <- H; congruence|exact IH]. Qed.
Lemma picks_unique {A} (P : A -> Prop) l b b' : picks P l b -> picks P l b' -> b = b'.
Proof. intro H. revert b'. induction H; intros b' H'; inversion H'; subst; try easy; [f_equal|]; auto. Qed.
Lemma picks_perm {A} (P : A -> Prop) l l' b : Permutation l l' -> picks P l b -> exists b', picks P l' b' /\ Permutation b b'.
Proof.
  intro H. revert b. induction H; intros b' PK.
  - exists b'. split; [exact PK|apply Permutation_refl].
  - inversion PK; subst; [|destruct (IHPermutation _ H4) as (b'' & Q1 & Q2); exists b''; split; [now apply picks_no|exact Q2]].
    destruct (IHPermutation _ H4) as (b'' & Q1 & Q2). exists (x :: b''). split; [now apply picks_yes|now constructor].
  - inversion PK as [|a1 l1 b1 P1 K1|a1 l1 b1 P1 K1]; subst; inversion K1 as [|a2 l2 b2 P2 K2|a2 l2 b2 P2 K2]; subst.
    + eexists. split; [apply picks_yes; [exact P2|apply picks_yes; [exact P1|exact K2]]|apply perm_swap].
    + eexists. split; [apply picks_no; [exact P2|apply picks_yes; [exact P1|exact K2]]|apply Permutation_refl].
    + eexists. split; [apply picks_yes; [exact P2|apply picks_no; [exact P1|exact K2]]|apply Permutation_refl].
    + eexists. split; [apply picks_no; [exact P2|apply picks_no; [exact P1|exact K2]]|apply Permutation_refl].
  - destruct (IHPermutation1 _ PK) as (b1 & Q1 & R1). destruct (IHPermutation2 _ Q1) as (b2 & Q2 & R2). exists b2. split; [exact Q2|]. etransitivity; eauto.
Qed.

(** ** mean and standard error *)
Lemma rsum_dev ys m : rsum ys = INR (length ys) * m -> rsum (map (fun y => (y - m) ^ 2) ys) = rsum (map (fun y => y * y) ys) - INR (length ys) * m ^ 2.
Proof.
  intro H. assert (forall l, rsum (map (fun y => (y - m) ^ 2) l) = rsum (map (fun y => y * y) l) - 2 * m * rsum l + INR (length l) * m ^ 2) as E.
  { induction l as [|y l IH]; [cbn; ring|]. cbn [map rsum fold_right length]. unfold rsum in IH |- *. cbn [fold_right]. rewrite S_INR, IH. ring. }
  rewrite E, H. ring.
Qed.
Lemma rsum_sq_nn ys m : 0 <= rsum (map (fun y => (y - m) ^ 2) ys).
Proof. induction ys as [|y ys IH]; [cbn; lra|]. cbn [map rsum fold_right]. unfold rsum in IH |- *. cbn [fold_right]. pose proof (pow2_ge_0 (y - m)). lra. Qed.
Lemma row_value r n pts i ys : ys = map snd (filter (fun p => fb_in r n i (fst p)) pts) -> (0 < length ys)%nat -> exists m e, mean_err ys m e /\
  fb_row r n pts i = (length ys, (fb_edge r n (S i) + fb_edge r n i) / 2, Fin m, Fin e).
Proof.
  intros E L. unfold fb_row. rewrite <- E. set (N := INR (length ys)). assert (0 < N) as HN by (now apply lt_0_INR). set (m := rsum ys / N).
  assert (rsum ys = N * m) as EM by (unfold m; field; lra). pose proof (rsum_dev ys m EM) as DV. fold N in DV. pose proof (rsum_sq_nn ys m) as NN. set (V := rsum (map (fun y => y * y) ys) / N - m * m).
  assert (0 <= V) as HV. { unfold V. apply (Rmult_le_reg_l N); [exact HN|]. rewrite Rmult_0_r. replace (N * (rsum (map (fun y => y * y) ys) / N - m * m)) with (rsum (map (fun y => y * y) ys) - N * m ^ 2) by (field; lra). lra. }
  exists m, (sqrt V / sqrt N). assert (0 < sqrt N) as SN by (now apply sqrt_lt_R0). split.
  - split; [exact EM|]. split; [apply Rmult_le_pos; [apply sqrt_pos|]; left; now apply Rinv_0_lt_compat|]. fold N. rewrite DV. unfold Rdiv. rewrite Rpow_mult_distr. replace ((/ sqrt N) ^ 2) with (/ N).
    + rewrite <- (Rsqr_pow2 (sqrt V)), Rsqr_sqrt by exact HV. unfold V. field. lra.
    + rewrite <- (Rsqr_sqrt N) at 1 by lra. unfold Rsqr. field. lra.
  - cbn [ext_div]. unfold reqb. destruct (Req_EM_T N 0); [lra|]. fold m. cbn [ext_mul ext_sub ext_add ext_opp]. replace (rsum (map (fun y => y * y) ys) / N + - (m * m)) with V by (unfold V; ring).
    unfold ext_sqrt, rltb. destruct (Rlt_dec V 0); [lra|]. destruct (Rlt_dec N 0); [lra|]. cbn [ext_div]. unfold reqb. destruct (Req_EM_T (sqrt N) 0); [lra|]. reflexivity.
Qed.
Lemma centre_edges lo hi n i : (0 < n)%nat -> (fb_edge (lo, hi) n (S i) + fb_edge (lo, hi) n i) / 2 = centre lo hi n i.
Proof. intro H. apply lt_0_INR in H. unfold fb_edge, centre. cbn [fst snd]. rewrite S_INR. field. lra. Qed.

Lemma increasing_filter f : forall n a, increasing (filter f (seq a n)) /\ forall i, In i (filter f (seq a n)) -> (a <= i)%nat.
Proof.
  induction n as [|n IH]; intro a; [split; [exact I|intros i []]|]. cbn [seq filter]. destruct (IH (S a)) as [I1 I2]. destruct (f a).
  - split; [|intros i [<-|Hi]; [lia|specialize (I2 i Hi); lia]]. destruct (filter f (seq (S a) n)) as [|b r] eqn:E; [exact I|]. split; [apply (I2 b); now left|exact I1].
  - split; [exact I1|]. intros i Hi. specialize (I2 i Hi). lia.
Qed.
Lemma filter_map {A B} (f : B -> bool) (g : A -> B) l : filter f (map g l) = map g (filter (fun x => f (g x)) l).
Proof. induction l as [|x l IH]; [reflexivity|]. cbn. destruct (f (g x)); cbn; now rewrite IH. Qed.

Lemma filter_twice {A} (f g : A -> bool) l : filter f (filter g l) = filter (fun x => g x && f x) l.
Proof. induction l as [|x l IH]; [reflexivity|]. cbn. destruct (g x); cbn; [destruct (f x)|]; now rewrite IH. Qed.
Lemma forall2_map {A B} (P : A -> B -> Prop) (g : A -> B) l : (forall x, In x l -> P x (g x)) -> Forall2 P l (map g l).
Proof. induction l as [|x l IH]; intro H; constructor; [apply H; now left|]. apply IH. intros; apply H; now right. Qed.

Theorem fastbin_spec x y n : (0 < n)%nat -> length x = length y -> x <> [] -> exists lo hi out, fastbin x y n = Ok out /\ range_of x lo hi /\ is_binning (combine x y) lo hi n out.
Proof.
  intros Hn HL HX. pose proof (range_ok x HX) as RO. destruct (hist_range x) as [lo hi] eqn:HR. cbn [fst snd] in RO. pose proof (range_lt _ _ _ RO) as LT. exists lo, hi. unfold fastbin.
  destruct (Nat.eqb_spec n 0); [lia|]. rewrite HL, Nat.eqb_refl. cbn [negb]. rewrite HR. eexists. split; [reflexivity|]. split; [exact RO|].
  set (pts := combine x y). rewrite !filter_map, map_map. set (row := fb_row (lo, hi) n pts).
  set (ys := fun i => map snd (filter (fun p => fb_in (lo, hi) n i (fst p)) pts)).
  assert (forall i, fst (fst (fst (row i))) = length (ys i)) as R1 by reflexivity. assert (forall i, snd (fst (fst (row i))) = centre lo hi n i) as R2 by (intro i; apply (centre_edges lo hi n i Hn)).
  assert (forall i, (i < n)%nat -> binned pts lo hi n i (ys i)) as BN.
  { intros i Hi. eexists. split; [|reflexivity]. apply picks_filter. intro p. now apply fb_in_spec. }
  assert (forall i, In i (filter (fun i => rltb 0 (snd (fst (fst (row i))))) (filter (fun i => Nat.leb 3 (fst (fst (fst (row i))))) (seq 0 n))) <-> (i < n)%nat /\ 0 < centre lo hi n i /\ (3 <= length (ys i))%nat) as IN.
  { intro i. rewrite !filter_In, in_seq, R1, R2, Nat.leb_le. unfold rltb. destruct (Rlt_dec 0 (centre lo hi n i)); intuition (try lia; try easy). }
  set (idx := filter (fun i => rltb 0 (snd (fst (fst (row i))))) (filter (fun i => Nat.leb 3 (fst (fst (fst (row i))))) (seq 0 n))) in *.
  exists idx. split; [|split].
  - unfold idx. rewrite filter_twice. apply increasing_filter.
  - intro i. rewrite IN. split; [intros (H1 & H2 & H3); split; [exact H1|]; split; [exact H2|]; exists (ys i); auto|].
    intros (H1 & H2 & ys' & (b & PB & ->) & H3). split; [exact H1|]. split; [exact H2|]. destruct (BN i H1) as (b' & PB' & ->). now rewrite (picks_unique _ _ _ _ PB' PB).
  - apply forall2_map. intros i Hi. apply IN in Hi as (H1 & H2 & H3). destruct (row_value (lo, hi) n pts i (ys i) eq_refl ltac:(lia)) as (m & e & ME & RV).
    exists (ys i), m, e. split; [now apply BN|]. split; [exact ME|]. fold row in RV. rewrite RV. cbn [fst snd]. now rewrite (centre_edges lo hi n i Hn).
Qed.

(** ** every point is in exactly one bin *)
Theorem one_bin xs lo hi n x : (0 < n)%nat -> range_of xs lo hi -> In x xs -> exists i, (i < n)%nat /\ in_interval lo hi n i x /\ forall j, (j < n)%nat -> in_interval lo hi n j x -> j = i.
Proof.
  intros Hn RO Hx. pose proof (range_lt _ _ _ RO) as LT. pose proof (range_in _ _ _ x RO Hx) as XB. assert (0 < INR n) as PN by (now apply lt_0_INR). set (w := (hi - lo) / INR n).
  assert (0 < w) as PW by (unfold w; apply Rdiv_lt_0_compat; lra). assert (INR n * w = hi - lo) as NW by (unfold w; field; lra).
  assert (exists i, (i < n)%nat /\ in_interval lo hi n i x) as (i & Hi & INT).
  { destruct (Req_dec x hi) as [->|NE].
    - exists (n - 1)%nat. split; [lia|]. unfold in_interval. fold w. split; [|right; split; [lia|reflexivity]]. rewrite minus_INR by lia. cbn [INR]. lra.
    - exists (Z.to_nat (Zfloor ((x - lo) / w))). assert (0 <= (x - lo) / w) as Q0 by (apply Rmult_le_pos; [lra|left; now apply Rinv_0_lt_compat]).
      assert (0 <= Zfloor ((x - lo) / w))%Z as Z0 by (apply Zfloor_lub; exact Q0). pose proof (Zfloor_lb ((x - lo) / w)) as LB. pose proof (Zfloor_ub ((x - lo) / w)) as UB.
      assert (INR (Z.to_nat (Zfloor ((x - lo) / w))) = IZR (Zfloor ((x - lo) / w))) as EI by (rewrite INR_IZR_INZ, Z2Nat.id by exact Z0; reflexivity).
      assert (((x - lo) / w) * w = x - lo) as XW by (field; lra). split.
      + apply INR_lt. rewrite EI. apply (Rmult_lt_reg_r w); [exact PW|]. rewrite NW. nra.
      + unfold in_interval. fold w. rewrite S_INR, EI. split; [nra|left; nra]. }
  exists i. split; [exact Hi|]. split; [exact INT|]. intros j Hj JNT. destruct (Nat.lt_trichotomy j i) as [C|[C|C]]; [|exact C|]; exfalso.
  - destruct INT as [A _], JNT as [_ B]. fold w in A, B. assert (INR (S j) <= INR i) as Q by (apply le_INR; lia). destruct B as [B|[B _]]; [nra|lia].
  - destruct JNT as [A _], INT as [_ B]. fold w in A, B. assert (INR (S i) <= INR j) as Q by (apply le_INR; lia). destruct B as [B|[B _]]; [nra|lia].
Qed.

(** ** means *)
Lemma rsum_bounds ys a b : (forall y, In y ys -> a <= y <= b) -> INR (length ys) * a <= rsum ys <= INR (length ys) * b.
Proof.
  induction ys as [|y ys IH]; intro H; [cbn; lra|]. specialize (IH ltac:(intros; apply H; now right)). specialize (H y ltac:(now left)). cbn [length rsum fold_right]. unfold rsum in IH |- *. cbn [fold_right]. rewrite S_INR. lra.
Qed.
Theorem mean_between ys m e a b : (0 < length ys)%nat -> mean_err ys m e -> (forall y, In y ys -> a <= y <= b) -> a <= m <= b /\ e <= b - a.
Proof.
  intros L (EM & E0 & EV) B. assert (0 < INR (length ys)) as PN by (now apply lt_0_INR). pose proof (rsum_bounds ys a b B) as RB. rewrite EM in RB. assert (a <= m <= b) as MB by (split; nra). split; [exact MB|].
  assert (rsum (map (fun y => (y - m) ^ 2) ys) <= INR (length ys) * (b - a) ^ 2) as Q.
  { rewrite <- (map_length (fun y => (y - m) ^ 2) ys). apply (rsum_bounds _ 0). intros q Hq. apply in_map_iff in Hq as (y & <- & Hy). specialize (B y Hy). split; [apply pow2_ge_0|]. nra. }
  rewrite EV in Q. assert (1 <= INR (length ys)) as P1 by (change 1 with (INR 1); apply le_INR; lia). assert (INR (length ys) * e ^ 2 <= (b - a) ^ 2) as Q1 by nra. assert (e ^ 2 <= (b - a) ^ 2) as Q2 by (pose proof (pow2_ge_0 e); nra). nra.
Qed.

(** ** order of the points *)
Lemma fb_row_perm r n pts pts' i : Permutation pts pts' -> fb_row r n pts i = fb_row r n pts' i.
Proof.
  intro P. assert (Permutation (filter (fun p => fb_in r n i (fst p)) pts) (filter (fun p => fb_in r n i (fst p)) pts')) as Q.
  { induction P; cbn; [constructor| | |etransitivity; eauto].
    - destruct (fb_in r n i (fst x)); [now constructor|exact IHP].
    - destruct (fb_in r n i (fst x)), (fb_in r n i (fst y)); try apply Permutation_refl. apply perm_swap. }
  apply (Permutation_map snd) in Q. unfold fb_row. rewrite (Permutation_length Q).
  assert (forall l l' : list R, Permutation l l' -> rsum l = rsum l') as RP.
  { intros l l' H. induction H; cbn; [reflexivity| | |congruence]; unfold rsum in *; cbn [fold_right] in *; [now rewrite IHPermutation|ring]. }
  rewrite (RP _ _ Q), (RP _ _ (Permutation_map (fun y => y * y) Q)). reflexivity.
Qed.
Lemma combine_fst {A B} (x : list A) (y : list B) : length x = length y -> map fst (combine x y) = x.
Proof. revert y. induction x as [|a x IH]; intros [|b y] H; try discriminate; [reflexivity|]. cbn in *. f_equal. apply IH. lia. Qed.
Theorem fastbin_perm x y x' y' n : length x = length y -> length x' = length y' -> Permutation (combine x y) (combine x' y') -> fastbin x y n = fastbin x' y' n.
Proof.
  intros L L' P. unfold fastbin. destruct (Nat.eqb n 0); [reflexivity|]. rewrite L, L', !Nat.eqb_refl. cbn [negb].
  assert (hist_range x = hist_range x') as HR.
  { apply (Permutation_map fst) in P. rewrite !combine_fst in P by assumption. unfold hist_range, vmin, vmax. rewrite (sort_perm_eq _ _ P), (Permutation_length P). reflexivity. }
  rewrite HR. do 2 f_equal. f_equal. f_equal. apply map_ext. intro i. now apply fb_row_perm.
Qed.

(** ** the phase plot *)
Theorem phase_bins phs lo hi : phs <> [] -> (forall p, In p phs -> 0 <= p < 1) -> range_of (phs ++ map (fun p => p + 1) phs) lo hi ->
  (forall i x, in_interval lo hi 25 i x -> ~ in_interval lo hi 25 i (x + 1)) /\ forall i, 0 < centre lo hi 25 i.
Proof.
  intros N B RO. pose proof (range_lt _ _ _ RO) as LT. assert (0 <= lo /\ hi < 2) as [L0 H2].
  { assert (forall x, In x (phs ++ map (fun p => p + 1) phs) -> 0 <= x < 2) as BX by (intros x Hx; apply in_app_or in Hx as [Hx|Hx]; [specialize (B x Hx); lra|apply in_map_iff in Hx as (p & <- & Hp); specialize (B p Hp); lra]).
    destruct RO as [(I1 & I2 & _ & _)|(a & -> & -> & _ & ALL)]; [split; [now apply BX|now apply BX]|]. exfalso. destruct phs as [|p phs]; [easy|].
    pose proof (ALL p ltac:(now left)). pose proof (ALL (p + 1) ltac:(apply in_or_app; right; now left)). lra. }
  assert (INR 25 = 25) as E25 by (cbn; lra). unfold in_interval, centre. rewrite E25. split.
  - intros i x [A1 A2] [B1 B2]. rewrite S_INR in A2, B2. pose proof (pos_INR i). destruct A2 as [A2|[A2 ->]]; destruct B2 as [B2|[B2 B3]]; try lra. assert (INR i = 24) as EI by (assert (i = 24)%nat as -> by lia; cbn; lra). rewrite EI in *. lra.
  - intro i. pose proof (pos_INR i). assert (0 < (INR i + 1 / 2) * ((hi - lo) / 25)) by (apply Rmult_lt_0_compat; lra). lra.
Qed.

(** ** which points get lost *)
Theorem positive_centres xs lo hi n i : (0 < n)%nat -> range_of xs lo hi -> (forall x, In x xs -> 0 < x) -> (exists x y, In x xs /\ In y xs /\ x <> y) -> 0 < centre lo hi n i.
Proof.
  intros Hn RO P (x & y & Hx & Hy & NE). pose proof (range_lt _ _ _ RO) as LT. assert (0 < INR n) as PN by (now apply lt_0_INR). destruct RO as [(I1 & _)|(a & -> & -> & _ & ALL)]; [|rewrite (ALL x Hx), (ALL y Hy) in NE; easy].
  specialize (P lo I1). unfold centre. pose proof (pos_INR i). assert (0 < (INR i + 1 / 2) * ((hi - lo) / INR n)) by (apply Rmult_lt_0_compat; [lra|apply Rdiv_lt_0_compat; lra]). lra.
Qed.
Definition lost_x : list R := [-3; -3; -3; 1].
Definition lost_y : list R := [1; 2; 3; 4].
Lemma lost_range lo hi : range_of lost_x lo hi -> lo = -3 /\ hi = 1.
Proof.
  intros [(I1 & I2 & LT & B)|(a & _ & _ & _ & ALL)].
  - pose proof (B (-3) ltac:(now left)). pose proof (B 1 ltac:(cbn; tauto)). cbn in I1, I2. lra.
  - pose proof (ALL (-3) ltac:(now left)). pose proof (ALL 1 ltac:(cbn; tauto)). lra.
Qed.
Lemma lost_interval i : (i < 2)%nat -> in_interval (-3) 1 2 i (-3) <-> i = 0%nat.
Proof. intro Hi. unfold in_interval. cbn [INR]. destruct i as [|[|i]]; [| |lia]; cbn [INR]; split; try easy; intros; lra. Qed.
Lemma lost_interval1 i : (i < 2)%nat -> in_interval (-3) 1 2 i 1 <-> i = 1%nat.
Proof. intro Hi. unfold in_interval. destruct i as [|[|i]]; [| |lia]; cbn [INR]; split; try easy; [intros [_ [?|[? _]]]; [lra|lia]|]. intros _. split; [lra|right; split; [reflexivity|lra]]. Qed.
Theorem lost_points : exists x y n lo hi i ys, range_of x lo hi /\ (i < n)%nat /\ binned (combine x y) lo hi n i ys /\ (3 <= length ys)%nat /\ fastbin x y n = Ok [].
Proof.
  destruct (fastbin_spec lost_x lost_y 2 ltac:(lia) eq_refl ltac:(discriminate)) as (lo & hi & out & E & RO & idx & _ & IX & F). destruct (lost_range lo hi RO) as [-> ->].
  exists lost_x, lost_y, 2%nat, (-3), 1, 0%nat, [1; 2; 3]. split; [exact RO|]. split; [lia|]. split; [|split; [cbn; lia|]].
  - exists [(-3, 1); (-3, 2); (-3, 3)]. split; [|reflexivity]. cbn [combine lost_x lost_y]. repeat (apply picks_yes; [cbn [fst]; now apply lost_interval; [lia|]|]). apply picks_no; [cbn [fst]; rewrite lost_interval1 by lia; easy|constructor].
  - rewrite E. f_equal. destruct F as [|i o idx out H F]; [reflexivity|]. exfalso. destruct (proj1 (IX i) ltac:(now left)) as (Hi & C & ys & (b & PB & ->) & L). destruct i as [|[|i]]; [| |lia].
    + unfold centre in C. cbn [INR] in C. lra.
    + assert (b = [(1, 4)]) as ->; [|cbn in L; lia]. eapply picks_unique; [exact PB|]. cbn [combine lost_x lost_y]. repeat (apply picks_no; [cbn [fst]; rewrite lost_interval by lia; easy|]). apply picks_yes; [cbn [fst]; now apply lost_interval1; [lia|]|constructor].
Qed.
