(** The covariance matrices of gp.py. *)
From Coq Require Import Reals String Arith Bool Lra Lia Psatz List.
From Coquelicot Require Import Coquelicot.
From Verif Require Import Py PyFloat PyFloatFacts Params ParamsProofs Gp GpSpec PsdProofs.
Import ListNotations.
Open Scope R_scope.

(** ** Lists *)

Lemma nth_error_add_diag es : forall m k i r e, nth_error m i = Some r -> nth_error es i = Some e ->
  nth_error (add_diag_from k es m) i = Some (add_at (k + i) e r).
Proof.
  induction es as [|e0 es IH]; intros m k i r e Hm He; [destruct i; easy|].
  destruct m as [|r0 m]; [destruct i; easy|]. cbn.
  destruct i as [|i]; cbn in *.
  - injection Hm as ->. injection He as ->. now rewrite Nat.add_0_r.
  - erewrite IH; eauto. do 2 f_equal. lia.
Qed.
Lemma length_add_diag es : forall k m, length (add_diag_from k es m) = length m.
Proof. induction es; intros k [|r m]; cbn; auto. Qed.
Lemma length_add_at i e r : length (add_at i e r) = length r.
Proof. unfold add_at. destruct (nth_error r i); auto. apply length_list_upd. Qed.
Lemma in_add_diag es : forall k m r, In r (add_diag_from k es m) -> exists r0, In r0 m /\ length r0 = length r.
Proof.
  induction es as [|e es IH]; intros k [|r0 m] r H; cbn in H; try easy; try (exists r; split; [exact H|reflexivity]).
  destruct H as [<-|H]; [exists r0; split; [now left|symmetry; apply length_add_at]|].
  apply IH in H as [r1 [H1 H2]]. exists r1. split; [now right|auto].
Qed.
Lemma nth_list_upd_other {A} (l : list A) : forall i j x, i <> j -> nth_error (list_upd l i x) j = nth_error l j.
Proof. induction l; intros [|i] [|j] x H; cbn; auto; try lia; try (now destruct j). Qed.
Lemma add_at_same i e r x : nth_error r i = Some (Fin x) -> nth_error (add_at i e r) i = Some (Fin (x + e ^ 2)).
Proof.
  intro H. unfold add_at. rewrite H. cbn [ext_add]. apply nth_list_upd_same.
  apply nth_error_Some. congruence.
Qed.
Lemma add_at_other i j e r : i <> j -> nth_error (add_at i e r) j = nth_error r j.
Proof. intro H. unfold add_at. destruct (nth_error r i); auto. now apply nth_list_upd_other. Qed.

Definition xat (xs : list R) (i : nat) : R := nth i xs 0.
Lemma xat_ok xs i : (i < length xs)%nat -> nth_error xs i = Some (xat xs i).
Proof. intro H. unfold xat. now apply nth_error_nth'. Qed.

Lemma cdist_square {A} (f : R -> A) xs : forall r, In r (map (map f) (cdist xs xs)) -> length r = length xs.
Proof.
  intros r H. apply in_map_iff in H as [r0 [<- H]]. apply in_map_iff in H as [a [<- _]]. now rewrite !map_length.
Qed.
Lemma cdist_nth {A} (f : R -> A) xs i : (i < length xs)%nat ->
  nth_error (map (map f) (cdist xs xs)) i = Some (map (fun b => f (Rabs (xat xs i - b))) xs).
Proof.
  intro H. unfold cdist. rewrite map_map, nth_error_map, (xat_ok xs i H). cbn. now rewrite map_map.
Qed.

(** adding an array of errors to the square matrix of a kernel *)
Lemma cov_matrix (f : R -> ext) (g : R -> R) xs es : (forall d, 0 <= d -> f d = Fin (g d)) -> length es = length xs ->
  is_matrix (length xs) (add_errors (inr es) (map (map f) (cdist xs xs)))
    (fun i j => g (Rabs (xat xs i - xat xs j)) + if Nat.eqb i j then xat es i ^ 2 else 0).
Proof.
  intros Hf Hl. unfold add_errors.
  assert (length (map (map f) (cdist xs xs)) = length xs) as L by (rewrite map_length; unfold cdist; apply map_length).
  assert (square (map (map f) (cdist xs xs)) = true) as Sq.
  { unfold square. apply forallb_forall. intros r Hr. apply Nat.eqb_eq. rewrite L. eapply cdist_square; eauto. }
  rewrite Sq, L, Hl, Nat.eqb_refl. cbn [andb]. split; [|split].
  - now rewrite length_add_diag.
  - intros r Hr. apply in_add_diag in Hr as [r0 [H0 <-]]. eapply cdist_square; eauto.
  - intros i j Hi Hj.
    assert (nth_error es i = Some (xat es i)) as He by (apply xat_ok; lia).
    eexists. split; [eapply nth_error_add_diag; [now apply cdist_nth|exact He]|]. cbn [Nat.add].
    assert (nth_error (map (fun b => f (Rabs (xat xs i - b))) xs) j = Some (Fin (g (Rabs (xat xs i - xat xs j))))) as E.
    { rewrite nth_error_map, (xat_ok xs j Hj). cbn. now rewrite Hf by apply Rabs_pos. }
    destruct (Nat.eqb_spec i j) as [->|N].
    + now apply add_at_same.
    + rewrite add_at_other by auto. rewrite E, Rplus_0_r. reflexivity.
Qed.

(** entries of a kernel that takes values in [0, amp^2] and amp^2 at distance 0 *)
Lemma cov_entries_kernel n amp g xs es : n = length xs -> length es = length xs ->
  g 0 = amp ^ 2 -> (forall d, 0 <= d -> 0 <= g d <= amp ^ 2) ->
  cov_entries n amp es (fun i j => g (Rabs (xat xs i - xat xs j)) + if Nat.eqb i j then xat es i ^ 2 else 0).
Proof.
  intros -> Hl H0 Hg. split; [|split].
  - intros i j _ _. rewrite Rabs_minus_sym, Nat.eqb_sym. destruct (Nat.eqb_spec j i) as [->|]; auto.
  - intros i e Hi He. rewrite Rminus_eq_0, Rabs_R0, H0, Nat.eqb_refl.
    rewrite xat_ok in He by lia. now injection He as <-.
  - intros i j Hi Hj N. destruct (Nat.eqb_spec i j); [easy|]. rewrite Rplus_0_r. apply Hg. apply Rabs_pos.
Qed.

(** ** SqExp and Per *)

Lemma sqexp_fin len amp d : len <> 0 -> sqexp_entry (Some len) (Some amp) d = Fin (amp ^ 2 * exp (- d ^ 2 / len ^ 2)).
Proof.
  intro H. unfold sqexp_entry, fl. cbn [ext_mul]. rewrite ext_div_fin by nra. cbn [ext_exp ext_mul].
  do 2 f_equal; [ring|]. f_equal. field. auto.
Qed.
Lemma per_fin len amp per d : len <> 0 -> per <> 0 ->
  per_entry (Some len) (Some amp) (Some per) d = Fin (amp ^ 2 * exp (- sin (PI * d / per) ^ 2 / (2 * len ^ 2))).
Proof.
  intros H Hp. unfold per_entry, fl. cbn [ext_mul]. rewrite ext_div_fin by auto. cbn [ext_sin ext_mul ext_opp].
  rewrite ext_div_fin by nra. cbn [ext_exp ext_mul]. do 2 f_equal; [ring|]. f_equal. field. auto.
Qed.
Lemma exp_le1 x : x <= 0 -> 0 <= exp x <= 1.
Proof.
  intro H. split; [left; apply exp_pos|]. rewrite <- exp_0. destruct H as [H| ->]; [left; now apply exp_increasing|lra].
Qed.
Lemma div_np a b : 0 <= a -> 0 < b -> - a / b <= 0.
Proof. intros. unfold Rdiv. pose proof (Rinv_0_lt_compat b ltac:(auto)). nra. Qed.

Lemma sq_abs x y : Rabs (x - y) ^ 2 = (x - y) ^ 2.
Proof. apply pow2_abs. Qed.
Lemma sin_sq_abs c u : sin (PI * Rabs u / c) ^ 2 = sin (PI * u / c) ^ 2.
Proof.
  unfold Rabs. destruct (Rcase_abs u); auto.
  replace (PI * - u / c) with (- (PI * u / c)) by (unfold Rdiv; ring). rewrite sin_neg. ring.
Qed.

Lemma cov_spec_intro (f : R -> ext) (g : R -> R) k amp xs es :
  (forall d, 0 <= d -> f d = Fin (g d)) -> length es = length xs ->
  (forall x y, g (Rabs (x - y)) = amp ^ 2 * k x y) -> (forall x, k x x = 1) -> (forall x y, 0 <= k x y <= 1) -> feat k ->
  cov_spec xs es amp k (add_errors (inr es) (map (map f) (cdist xs xs))).
Proof.
  intros Hf Hl Hg K1 K2 F. eexists. split; [apply cov_matrix; eauto|]. split; [|split; [|split]].
  - intros i j ti tj Hi Hj N. destruct (Nat.eqb_spec i j); [easy|]. rewrite Rplus_0_r, Hg.
    unfold xat. now rewrite (nth_error_nth xs i 0 Hi), (nth_error_nth xs j 0 Hj).
  - apply cov_entries_kernel; auto.
    + rewrite <- (Rabs_R0), <- (Rminus_eq_0 0), Hg, K1. ring.
    + intros d Hd. replace d with (Rabs (d - 0)) by (rewrite Rminus_0_r; now apply Rabs_pos_eq).
      rewrite Hg. pose proof (K2 d 0). assert (0 <= amp ^ 2) by apply pow2_ge_0. nra.
  - apply (psd_diag _ (fun i j => g (Rabs (xat xs i - xat xs j))) (xat es)).
    apply (psd_ext _ (fun i j => amp ^ 2 * k (xat xs i) (xat xs j))); [intros; symmetry; apply Hg|].
    apply psd_scal; [apply pow2_ge_0|]. now apply feat_psd.
  - intro He. apply (pd_diag _ (fun i j => g (Rabs (xat xs i - xat xs j))) (xat es)).
    + apply (psd_ext _ (fun i j => amp ^ 2 * k (xat xs i) (xat xs j))); [intros; symmetry; apply Hg|].
      apply psd_scal; [apply pow2_ge_0|]. now apply feat_psd.
    + intros i Hi. apply He. apply nth_In. lia.
Qed.

Lemma sq_k_range len x y : len <> 0 -> 0 <= sq_k len x y <= 1.
Proof. intro H. apply exp_le1. apply div_np; [apply pow2_ge_0|now apply pow2_gt_0]. Qed.
Lemma sq_k_diag len x : len <> 0 -> sq_k len x x = 1.
Proof. intro H. unfold sq_k. rewrite Rminus_eq_0, <- exp_0. f_equal. field. auto. Qed.
Lemma per_k_range len per x y : len <> 0 -> 0 <= per_k len per x y <= 1.
Proof. intro H. apply exp_le1. apply div_np; [apply pow2_ge_0|]. pose proof (pow2_gt_0 _ H). lra. Qed.
Lemma per_k_diag len per x : len <> 0 -> per_k len per x x = 1.
Proof.
  intro H. unfold per_k. rewrite Rminus_eq_0. replace (PI * 0 / per) with 0 by (unfold Rdiv; ring).
  rewrite sin_0, <- exp_0. f_equal. field. auto.
Qed.

Lemma sqexp_cov h cov d0 xs es len amp :
  dget h "gp_length"%string = Some (Some len) -> dget h "gp_amp"%string = Some (Some amp) -> len <> 0 ->
  length es = length xs ->
  exists m, compute_covmatrix SqExp (set_dist (mkK h cov d0) xs xs) (inr es) = (mkK h (Some m) (cdist xs xs), Ok m) /\
            cov_spec xs es amp (fun x y => exp (- (x - y) ^ 2 / len ^ 2)) m.
Proof.
  intros H1 H2 Hl He. unfold compute_covmatrix, hval, dget_res, set_dist. cbn [k_h k_cov k_dist]. rewrite H1, H2.
  eexists. split; [reflexivity|].
  apply (cov_spec_intro _ (fun d => amp ^ 2 * exp (- d ^ 2 / len ^ 2)) (sq_k len)); auto.
  - intros. now apply sqexp_fin.
  - intros. now rewrite sq_abs.
  - intro. now apply sq_k_diag.
  - intros. now apply sq_k_range.
  - now apply sq_feat.
Qed.
Lemma per_cov h cov d0 xs es len amp per :
  dget h "gp_length"%string = Some (Some len) -> dget h "gp_amp"%string = Some (Some amp) ->
  dget h "gp_per"%string = Some (Some per) -> len <> 0 -> per <> 0 ->
  length es = length xs ->
  exists m, compute_covmatrix Per (set_dist (mkK h cov d0) xs xs) (inr es) = (mkK h (Some m) (cdist xs xs), Ok m) /\
            cov_spec xs es amp (fun x y => exp (- sin (PI * (x - y) / per) ^ 2 / (2 * len ^ 2))) m.
Proof.
  intros H1 H2 H3 Hl Hp He. unfold compute_covmatrix, hval, dget_res, set_dist. cbn [k_h k_cov k_dist]. rewrite H1, H2, H3.
  eexists. split; [reflexivity|].
  apply (cov_spec_intro _ (fun d => amp ^ 2 * exp (- sin (PI * d / per) ^ 2 / (2 * len ^ 2))) (per_k len per)); auto.
  - intros. now apply per_fin.
  - intros. unfold per_k. now rewrite sin_sq_abs.
  - intro. now apply per_k_diag.
  - intros. now apply per_k_range.
  - now apply per_feat.
Qed.

(** ** QuasiPer *)

Lemma reqb_pos x : 0 < x -> reqb x 0 = false.
Proof. intro. unfold reqb. destruct (Req_EM_T x 0); auto; lra. Qed.
Lemma rltb_pos x : 0 < x -> rltb x 0 = false.
Proof. intro. unfold rltb. destruct (Rlt_dec x 0); auto; lra. Qed.


Lemma quasi_run h cov d e pl amp per el : quasi_h h pl amp per el -> 0 < pl -> 0 < amp -> 0 < per -> 0 < el ->
  compute_covmatrix QuasiPer (mkK h cov d) e =
  let m := add_errors e (map (map (fun d => Fin (quasi_entry pl amp per el d))) d) in (mkK h (Some m) d, Ok m).
Proof.
  intros [H1 [H2 [H3 H4]]] P1 P2 P3 P4. unfold compute_covmatrix, hval, dget_res. cbn [k_h k_cov k_dist].
  rewrite H1, H2, H3, H4. cbn [bad_hyper]. rewrite !rltb_pos by auto. cbn [orb]. rewrite !reqb_pos by auto. reflexivity.
Qed.

Lemma clip_np x : x <= 0 -> clip x = Rmax x (-100).
Proof. intro. unfold clip. apply Rmin_left. apply Rmax_lub; lra. Qed.
Lemma clip_id x : -100 <= x <= 0 -> clip x = x.
Proof. intro. rewrite clip_np by lra. apply Rmax_left. lra. Qed.
Lemma clip_low x : x <= -100 -> clip x = -100.
Proof. intro. rewrite clip_np by lra. apply Rmax_right. lra. Qed.
Lemma exp_mono x y : x <= y -> exp x <= exp y.
Proof. intros [H| ->]; [left; now apply exp_increasing|lra]. Qed.
Lemma clip_range x : x <= 0 -> -100 <= clip x <= 0.
Proof. intro. rewrite clip_np by auto. split; [apply Rmax_r|apply Rmax_lub; lra]. Qed.
(** clipping raises an exponential by at most e^-100 *)
Lemma clip_err x : x <= 0 -> 0 <= exp (clip x) - exp x <= exp (-100).
Proof.
  intro H. rewrite clip_np by auto. destruct (Rle_dec (-100) x) as [L|L].
  - rewrite Rmax_left by auto. pose proof (exp_pos (-100)). lra.
  - rewrite Rmax_right by lra. pose proof (exp_pos x). assert (exp x <= exp (-100)) by (apply exp_mono; lra). lra.
Qed.

Definition t1 (el x y : R) : R := - (x - y) ^ 2 / el ^ 2.
Definition t2 (pl per x y : R) : R := - sin (PI * (x - y) / per) ^ 2 / (2 * pl ^ 2).
Definition quasi_k (pl per el x y : R) : R := exp (t1 el x y) * exp (t2 pl per x y).
Definition quasi_c (pl per el x y : R) : R := exp (clip (t1 el x y)) * exp (clip (t2 pl per x y)).

Lemma t1_np el x y : 0 < el -> t1 el x y <= 0.
Proof. intro. apply div_np; [apply pow2_ge_0|nra]. Qed.
Lemma t2_np pl per x y : 0 < pl -> t2 pl per x y <= 0.
Proof. intro. apply div_np; [apply pow2_ge_0|nra]. Qed.
Lemma quasi_abs pl amp per el x y : quasi_entry pl amp per el (Rabs (x - y)) = amp ^ 2 * quasi_c pl per el x y.
Proof. unfold quasi_entry, quasi_c, t1, t2. rewrite sq_abs, sin_sq_abs. ring. Qed.
Lemma t1_diag el x : 0 < el -> t1 el x x = 0.
Proof. intro. unfold t1. field_simplify_eq; [ring|lra]. Qed.
Lemma t2_diag pl per x : 0 < pl -> t2 pl per x x = 0.
Proof.
  intro. unfold t2. rewrite Rminus_eq_0. replace (PI * 0 / per) with 0 by (unfold Rdiv; ring).
  rewrite sin_0. field. lra.
Qed.
Lemma quasi_c_diag pl per el x : 0 < pl -> 0 < el -> quasi_c pl per el x x = 1.
Proof. intros. unfold quasi_c. rewrite t1_diag, t2_diag, clip_id, exp_0 by lra. lra. Qed.
Lemma quasi_c_range pl per el x y : 0 < pl -> 0 < el -> 0 <= quasi_c pl per el x y <= 1.
Proof.
  intros. unfold quasi_c.
  destruct (exp_le1 _ (proj2 (clip_range _ (t1_np el x y ltac:(auto))))).
  destruct (exp_le1 _ (proj2 (clip_range _ (t2_np pl per x y ltac:(auto))))). nra.
Qed.
Lemma quasi_feat pl per el : 0 < pl -> 0 < per -> 0 < el -> feat (quasi_k pl per el).
Proof. intros. apply feat_mult; [apply (sq_feat el)|apply (per_feat pl per)]; lra. Qed.
Lemma quasi_err pl per el x y : 0 < pl -> 0 < el -> Rabs (quasi_c pl per el x y - quasi_k pl per el x y) <= 2 * exp (-100).
Proof.
  intros. unfold quasi_c, quasi_k.
  pose proof (clip_err _ (t1_np el x y ltac:(auto))). pose proof (clip_err _ (t2_np pl per x y ltac:(auto))).
  destruct (exp_le1 _ (t1_np el x y ltac:(auto))). destruct (exp_le1 _ (proj2 (clip_range _ (t2_np pl per x y ltac:(auto))))).
  set (a := exp (t1 el x y)) in *. set (a' := exp (clip (t1 el x y))) in *.
  set (b := exp (t2 pl per x y)) in *. set (b' := exp (clip (t2 pl per x y))) in *.
  replace (a' * b' - a * b) with ((a' - a) * b' + a * (b' - b)) by ring.
  assert (0 <= (a' - a) * b' <= exp (-100)) by nra. assert (0 <= a * (b' - b) <= exp (-100)) by nra.
  rewrite Rabs_pos_eq; lra.
Qed.

(** symmetric with the right diagonal and bounds, for all positive hyper-parameters *)
Lemma quasi_entries h cov d0 xs es pl amp per el :
  quasi_h h pl amp per el -> 0 < pl -> 0 < amp -> 0 < per -> 0 < el -> length es = length xs ->
  exists m a, compute_covmatrix QuasiPer (set_dist (mkK h cov d0) xs xs) (inr es) = (mkK h (Some m) (cdist xs xs), Ok m) /\
    is_matrix (length xs) m a /\ cov_entries (length xs) amp es a /\
    ((forall e, In e es -> 2 * INR (length xs) * amp ^ 2 * exp (-100) < e ^ 2) -> pd (length xs) a).
Proof.
  intros H P1 P2 P3 P4 Hl. unfold set_dist. cbn [k_h k_cov]. rewrite (quasi_run _ _ _ _ _ _ _ _ H) by auto. cbv zeta.
  eexists; eexists. split; [reflexivity|]. split; [eapply cov_matrix; eauto|]. split.
  - apply cov_entries_kernel; auto.
    + rewrite <- (Rabs_R0), <- (Rminus_eq_0 0), quasi_abs, quasi_c_diag by auto. ring.
    + intros d Hd. replace d with (Rabs (d - 0)) by (rewrite Rminus_0_r; now apply Rabs_pos_eq).
      rewrite quasi_abs. pose proof (quasi_c_range pl per el d 0 P1 P4). assert (0 <= amp ^ 2) by apply pow2_ge_0. nra.
  - intro He.
    apply (pd_ext _ (fun i j => amp ^ 2 * quasi_k pl per el (xat xs i) (xat xs j)
       + amp ^ 2 * (quasi_c pl per el (xat xs i) (xat xs j) - quasi_k pl per el (xat xs i) (xat xs j))
       + if Nat.eqb i j then xat es i ^ 2 else 0)).
    { intros i j _ _. rewrite quasi_abs. ring. }
    assert (0 <= amp ^ 2) by apply pow2_ge_0.
    apply (pd_perturbed _ _ _ _ (2 * amp ^ 2 * exp (-100))).
    + apply psd_scal; auto. apply (feat_psd (quasi_k pl per el) (length xs) (xat xs)). now apply quasi_feat.
    + pose proof (exp_pos (-100)). nra.
    + intros i j _ _. rewrite Rabs_mult, (Rabs_pos_eq (amp ^ 2)) by auto.
      pose proof (quasi_err pl per el (xat xs i) (xat xs j) P1 P4). nra.
    + intros i Hi. assert (In (xat es i) es) as Hin by (apply nth_In; lia). specialize (He _ Hin). lra.
Qed.

(** no clipping: the documented kernel *)
Lemma quasi_unclipped h cov d0 xs es pl amp per el :
  quasi_h h pl amp per el -> 0 < pl -> 0 < amp -> 0 < per -> 0 < el -> length es = length xs ->
  (forall x y, In x xs -> In y xs -> (x - y) ^ 2 <= 100 * el ^ 2) -> 1 <= 200 * pl ^ 2 ->
  exists m, compute_covmatrix QuasiPer (set_dist (mkK h cov d0) xs xs) (inr es) = (mkK h (Some m) (cdist xs xs), Ok m) /\
    cov_spec xs es amp (fun x y => exp (- (x - y) ^ 2 / el ^ 2) * exp (- sin (PI * (x - y) / per) ^ 2 / (2 * pl ^ 2))) m.
Proof.
  intros H P1 P2 P3 P4 Hl Hd Hp.
  assert (forall x y, In x xs -> In y xs -> quasi_c pl per el x y = quasi_k pl per el x y) as E.
  { intros x y Hx Hy. unfold quasi_c, quasi_k. f_equal; f_equal; apply clip_id.
    - split; [|now apply t1_np]. unfold t1. specialize (Hd x y Hx Hy).
      apply (Rmult_le_reg_r (el ^ 2)); [nra|]. unfold Rdiv. rewrite Rmult_assoc, Rinv_l by nra. lra.
    - split; [|now apply t2_np]. unfold t2. set (s := sin _). assert (s ^ 2 <= 1).
      { unfold s. match goal with |- sin ?z ^ 2 <= 1 => pose proof (sin2_cos2 z) as Q; unfold Rsqr in Q; set (u := sin z) in *; set (w := cos z) in * end. nra. }
      apply (Rmult_le_reg_r (2 * pl ^ 2)); [nra|]. unfold Rdiv. rewrite Rmult_assoc, Rinv_l by nra. lra. }
  unfold set_dist. cbn [k_h k_cov]. rewrite (quasi_run _ _ _ _ _ _ _ _ H) by auto. cbv zeta.
  eexists. split; [reflexivity|].
  assert (forall i, (i < length xs)%nat -> In (xat xs i) xs) as Hin by (intros; apply nth_In; auto).
  eexists. split; [eapply cov_matrix; eauto|].
  assert (psd (length xs) (fun i j => quasi_entry pl amp per el (Rabs (xat xs i - xat xs j)))) as P.
  { apply (psd_ext _ (fun i j => amp ^ 2 * quasi_k pl per el (xat xs i) (xat xs j))).
    - intros i j Hi Hj. rewrite quasi_abs, E; auto.
    - apply psd_scal; [apply pow2_ge_0|]. apply (feat_psd (quasi_k pl per el) (length xs) (xat xs)). now apply quasi_feat. }
  split; [|split; [|split]].
  - intros i j ti tj Hi Hj N. destruct (Nat.eqb_spec i j); [easy|]. rewrite Rplus_0_r, quasi_abs.
    assert (xat xs i = ti) as -> by (now apply nth_error_nth). assert (xat xs j = tj) as -> by (now apply nth_error_nth).
    apply nth_error_In in Hi, Hj. now rewrite E.
  - apply cov_entries_kernel; auto.
    + rewrite <- (Rabs_R0), <- (Rminus_eq_0 0), quasi_abs, quasi_c_diag by auto. ring.
    + intros d Hd'. replace d with (Rabs (d - 0)) by (rewrite Rminus_0_r; now apply Rabs_pos_eq).
      rewrite quasi_abs. pose proof (quasi_c_range pl per el d 0 P1 P4). assert (0 <= amp ^ 2) by apply pow2_ge_0. nra.
  - apply (psd_diag _ _ (xat es)). exact P.
  - intro He. apply (pd_diag _ _ (xat es)); [exact P|]. intros i Hi. apply He. apply nth_In. lia.
Qed.

(** ** Clipping destroys positive definiteness *)

Lemma clip_quad eps h k1 km (H1 : 1 - k1 <= h ^ 2) (Hk : eps * (1 + 20 * h - h ^ 2) <= km)
  (He : 0 < eps <= 1) (Hh : 0 < h <= eps) : 4 * (1 - k1) + 2 * (eps - km) <= - h * eps.
Proof. nra. Qed.

Lemma quad4 a c : quad 4 a c =
  c 0%nat * c 0%nat * a 0%nat 0%nat + c 0%nat * c 1%nat * a 0%nat 1%nat + c 0%nat * c 2%nat * a 0%nat 2%nat + c 0%nat * c 3%nat * a 0%nat 3%nat
  + (c 1%nat * c 0%nat * a 1%nat 0%nat + c 1%nat * c 1%nat * a 1%nat 1%nat + c 1%nat * c 2%nat * a 1%nat 2%nat + c 1%nat * c 3%nat * a 1%nat 3%nat)
  + (c 2%nat * c 0%nat * a 2%nat 0%nat + c 2%nat * c 1%nat * a 2%nat 1%nat + c 2%nat * c 2%nat * a 2%nat 2%nat + c 2%nat * c 3%nat * a 2%nat 3%nat)
  + (c 3%nat * c 0%nat * a 3%nat 0%nat + c 3%nat * c 1%nat * a 3%nat 1%nat + c 3%nat * c 2%nat * a 3%nat 2%nat + c 3%nat * c 3%nat * a 3%nat 3%nat).
Proof. unfold quad, Sum, rsum. cbn [seq map fold_right]. ring. Qed.

Lemma sin_Zpi (z : Z) : sin (PI * IZR z / 1) = 0.
Proof. apply sin_eq_0_1. exists z. field. Qed.
Lemma one_minus_exp u : 1 - exp (- u) <= u.
Proof. pose proof (exp_ineq1_le (- u)). lra. Qed.

Lemma quasi_int el (z : Z) d : d = IZR z -> quasi_entry 1 1 1 el d = exp (clip (- d ^ 2 / el ^ 2)).
Proof.
  intros ->. unfold quasi_entry. rewrite sin_Zpi. replace (- 0 ^ 2 / (2 * 1 ^ 2)) with 0 by field.
  rewrite (clip_id 0), exp_0 by lra. ring.
Qed.

Definition cbad (i : nat) : R := match i with 0%nat => 1 | 1%nat => -1 | 2%nat => 1 | _ => -1 end.

Lemma quasi_not_pd h cov d0 : quasi_h h 1 1 1 ((IZR (up (10 * exp 100))) / 10) ->
  let n := IZR (up (10 * exp 100)) in
  let xs := [0; 1; n; n + 1] in
  exists e m a, 0 < e /\
    compute_covmatrix QuasiPer (set_dist (mkK h cov d0) xs xs) (inr (repeat e 4)) = (mkK h (Some m) (cdist xs xs), Ok m) /\
    is_matrix 4 m a /\ quad 4 a cbad < 0.
Proof.
  intros Hh n xs. set (N := up (10 * exp 100)) in *.
  assert (10 * exp 100 < n) as Hn by (unfold n, N; apply archimed).
  assert (1 < exp 100) as E100 by (rewrite <- exp_0; apply exp_increasing; lra).
  set (eps := exp (-100)).
  assert (eps * exp 100 = 1) as EE by (unfold eps; rewrite <- exp_plus, <- exp_0; f_equal; lra).
  assert (0 < eps) as Pe by apply exp_pos.
  assert (eps <= 1) as Le by nra.
  set (hh := 10 / n).
  assert (0 < n) as Pn by lra.
  assert (hh * n = 10) as Hhn by (unfold hh; field; lra).
  assert (0 < hh) as Ph by nra.
  assert (hh <= eps) as Hhe by nra.
  set (e := sqrt (hh * eps / 8)).
  assert (0 < hh * eps / 8) as P8 by nra.
  assert (0 < e) as Pes by (now apply sqrt_lt_R0).
  assert (e ^ 2 = hh * eps / 8) as E2 by (unfold e; rewrite <- Rsqr_pow2; apply Rsqr_sqrt; lra).
  unfold set_dist. cbn [k_h k_cov]. fold n in Hh.
  exists e. eexists; eexists. split; [auto|]. split; [rewrite (quasi_run _ _ _ _ _ _ _ _ Hh) by lra; cbv zeta; reflexivity|].
  split; [apply (cov_matrix _ (quasi_entry 1 1 1 (n / 10)) xs (repeat e 4)); [auto|reflexivity]|].
  rewrite quad4. unfold cbad, xat, xs. cbn [nth repeat Nat.eqb].
  assert (forall u v d, u - v = d -> 0 <= d -> Rabs (u - v) = d) as Ab by (intros u v d <- Hd; now apply Rabs_pos_eq).
  assert (forall u v d, v - u = d -> 0 <= d -> Rabs (u - v) = d) as Ab' by (intros u v d <- Hd; rewrite Rabs_minus_sym; now apply Rabs_pos_eq).
  rewrite (Ab 0 0 0), (Ab' 0 1 1), (Ab' 0 n n), (Ab' 0 (n + 1) (n + 1)), (Ab 1 0 1), (Ab 1 1 0), (Ab' 1 n (n - 1)), (Ab' 1 (n + 1) n),
    (Ab n 0 n), (Ab n 1 (n - 1)), (Ab n n 0), (Ab' n (n + 1) 1), (Ab (n + 1) 0 (n + 1)), (Ab (n + 1) 1 n), (Ab (n + 1) n 1), (Ab (n + 1) (n + 1) 0) by lra.
  rewrite (quasi_int (n / 10) 0 0) by reflexivity. rewrite (quasi_int (n / 10) 1 1) by reflexivity.
  rewrite (quasi_int (n / 10) N n) by reflexivity.
  rewrite (quasi_int (n / 10) (N + 1) (n + 1)) by (unfold n; now rewrite plus_IZR).
  rewrite (quasi_int (n / 10) (N - 1) (n - 1)) by (unfold n; now rewrite minus_IZR).
  replace (- 0 ^ 2 / (n / 10) ^ 2) with 0 by (field; lra). rewrite (clip_id 0), exp_0 by lra.
  replace (- 1 ^ 2 / (n / 10) ^ 2) with (- hh ^ 2) by (unfold hh; field; lra). rewrite (clip_id (- hh ^ 2)) by nra.
  replace (- n ^ 2 / (n / 10) ^ 2) with (-100) by (field; lra). rewrite (clip_id (-100)) by lra. fold eps.
  replace (- (n + 1) ^ 2 / (n / 10) ^ 2) with (-100 - 20 * hh - hh ^ 2) by (unfold hh; field; lra).
  rewrite (clip_low (-100 - 20 * hh - hh ^ 2)) by nra. fold eps.
  replace (- (n - 1) ^ 2 / (n / 10) ^ 2) with (-100 + (20 * hh - hh ^ 2)) by (unfold hh; field; lra).
  rewrite clip_id by nra. rewrite exp_plus. fold eps.
  assert (1 - exp (- hh ^ 2) <= hh ^ 2) as Q1 by apply one_minus_exp.
  assert (eps * (1 + 20 * hh - hh ^ 2) <= eps * exp (20 * hh - hh ^ 2)) as Q2.
  { apply Rmult_le_compat_l; [lra|]. pose proof (exp_ineq1_le (20 * hh - hh ^ 2)). lra. }
  pose proof (clip_quad eps hh _ _ Q1 Q2 ltac:(lra) ltac:(lra)) as Q. rewrite E2. 
  set (a := exp (- hh ^ 2)) in *. set (b := eps * exp (20 * hh - hh ^ 2)) in *. clearbody a b. nra.
Qed.

(** ** The zero branch *)

(** with a zero hyper-parameter the matrix returned is diag(err^2) and
    kernel.covmatrix keeps its old value *)
Lemma repeat_nth {A} (x : A) n i : (i < n)%nat -> nth_error (repeat x n) i = Some x.
Proof. revert i. induction n; intros [|i] H; cbn; auto; try lia. apply IHn. lia. Qed.

Lemma quasi_zero h cov d0 xs es pl amp per el :
  quasi_h h pl amp per el -> 0 <= pl -> 0 <= amp -> 0 <= per -> 0 <= el -> pl * amp * per * el = 0 -> length es = length xs ->
  exists m, compute_covmatrix QuasiPer (set_dist (mkK h cov d0) xs xs) (inr es) = (mkK h cov (cdist xs xs), Ok m) /\
    is_matrix (length xs) m (fun i j => if Nat.eqb i j then xat es i ^ 2 else 0).
Proof.
  intros [H1 [H2 [H3 H4]]] P1 P2 P3 P4 Z Hl. unfold compute_covmatrix, hval, dget_res, set_dist. cbn [k_h k_cov k_dist].
  rewrite H1, H2, H3, H4. cbn [bad_hyper].
  assert (forall x, 0 <= x -> rltb x 0 = false) as B by (intros x Hx; unfold rltb; destruct (Rlt_dec x 0); auto; lra).
  rewrite !B by auto. cbn [orb].
  assert (reqb amp 0 || reqb per 0 || reqb el 0 || reqb pl 0 = true) as ->.
  { unfold reqb. destruct (Req_EM_T amp 0), (Req_EM_T per 0), (Req_EM_T el 0), (Req_EM_T pl 0); auto.
    exfalso. repeat (apply Rmult_integral in Z as [Z|Z]); auto. }
  assert (length (cdist xs xs) = length xs) as L by apply map_length. rewrite L, Hl, Nat.eqb_refl.
  eexists. split; [reflexivity|]. split; [|split].
  - now rewrite length_add_diag, repeat_length.
  - intros r Hr. apply in_add_diag in Hr as [r0 [H0 <-]]. apply repeat_spec in H0 as ->. apply repeat_length.
  - intros i j Hi Hj. eexists. split; [eapply nth_error_add_diag; [now apply repeat_nth|apply xat_ok; lia]|].
    cbn [Nat.add]. destruct (Nat.eqb_spec i j) as [->|N].
    + rewrite (add_at_same j (xat es j) _ 0) by (now apply repeat_nth). now rewrite Rplus_0_l.
    + rewrite add_at_other by auto. now apply repeat_nth.
Qed.

Lemma quasi_diag_refuted : exists h pl amp per el m a, quasi_h h pl amp per el /\ 0 <= pl /\ 0 < amp /\ 0 < per /\ 0 < el /\
  snd (compute_covmatrix QuasiPer (set_dist (mkK h None []) [0] [0]) (inr [1])) = Ok m /\
  is_matrix 1 m a /\ a 0%nat 0%nat <> amp ^ 2 + 1 ^ 2.
Proof.
  exists [("gp_perlength", Some 0); ("gp_amp", Some 1); ("gp_per", Some 1); ("gp_explength", Some 1)]%string, 0, 1, 1, 1.
  assert (quasi_h [("gp_perlength", Some 0); ("gp_amp", Some 1); ("gp_per", Some 1); ("gp_explength", Some 1)]%string 0 1 1 1) as Q by repeat split.
  destruct (quasi_zero _ None [] [0] [1] 0 1 1 1 Q) as [m [E M]]; try lra; [reflexivity|].
  exists m. eexists. split; [exact Q|]. split; [lra|]. split; [lra|]. split; [lra|]. split; [lra|].
  split; [rewrite E; reflexivity|]. split; [exact M|]. cbn. lra.
Qed.

Lemma quasi_pd_refuted : exists h pl amp per el xs es m a c,
  quasi_h h pl amp per el /\ 0 < pl /\ 0 < amp /\ 0 < per /\ 0 < el /\ length es = length xs /\ (forall e, In e es -> 0 < e) /\
  compute_covmatrix QuasiPer (set_dist (mkK h None []) xs xs) (inr es) = (mkK h (Some m) (cdist xs xs), Ok m) /\
  is_matrix (length xs) m a /\ quad (length xs) a c < 0.
Proof.
  set (n := IZR (up (10 * exp 100))).
  set (h := [("gp_perlength", Some 1); ("gp_amp", Some 1); ("gp_per", Some 1); ("gp_explength", Some (n / 10))]%string).
  assert (quasi_h h 1 1 1 (n / 10)) as Q by repeat split.
  destruct (quasi_not_pd h None [] Q) as [e [m [a [He [E [M N]]]]]]. fold n in E.
  assert (10 * exp 100 < n) by (unfold n; apply archimed). pose proof (exp_pos 100).
  exists h, 1, 1, 1, (n / 10), [0; 1; n; n + 1], (repeat e 4), m, a, cbad.
  split; [exact Q|]. split; [lra|]. split; [lra|]. split; [lra|]. split; [lra|]. split; [reflexivity|].
  split; [intros x Hx; apply repeat_spec in Hx; now subst|]. split; [exact E|]. split; [exact M|exact N].
Qed.

(** SqExp with length scale zero: 0/0 *)
Lemma sqexp_zero_length_refuted : exists h, dget h "gp_length"%string = Some (Some 0) /\ dget h "gp_amp"%string = Some (Some 1) /\
  snd (compute_covmatrix SqExp (set_dist (mkK h None []) [0] [0]) (inr [1])) = Ok [[NaN]].
Proof.
  exists [("gp_length", Some 0); ("gp_amp", Some 1)]%string. split; [reflexivity|]. split; [reflexivity|].
  unfold compute_covmatrix, hval, set_dist, dget_res. cbn [k_h k_dist dget cdist map String.eqb Ascii.eqb Bool.eqb].
  assert (sqexp_entry (Some 0) (Some 1) (Rabs (0 - 0)) = NaN) as E.
  { unfold sqexp_entry, fl. cbn [ext_mul]. rewrite Rminus_eq_0, Rabs_R0. unfold ext_div.
    assert (reqb (0 * 0) 0 = true) as -> by (unfold reqb; destruct (Req_EM_T (0 * 0) 0); auto; lra).
    unfold inf_of, rltb. replace (- 0 ^ 2) with 0 by ring. destruct (Rlt_dec 0 0); [lra|]. reflexivity. }
  rewrite E. reflexivity.
Qed.
