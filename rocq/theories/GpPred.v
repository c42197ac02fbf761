(** C70: the prediction of the Gaussian process. *)
From Coq Require Import Reals String Arith Bool Lra Lia List.
From Verif Require Import Py PyFloat PyFacts Params Kepler Basis Likelihood Gp GpSpec PsdProofs GpProofs GpHist GpMore LikeSpec LikeDensity CholSpec Cholesky GpLike PredSpec GpResid.
Import ListNotations.
Open Scope R_scope.

(** ** exact linear algebra exists *)
Lemma dual_value n a L x z y b r : factor n a L -> solves n a x r -> solves n L z r -> solves n L y b -> Sum n (fun i => b i * x i) = Sum n (fun i => y i * z i).
Proof.
  intros F SX SZ SY. set (w := fun k => Sum n (fun i => L i k * x i)).
  assert (solves n L w r) as SW.
  { intros i Hi. rewrite <- (SX i Hi). unfold w. destruct F as [_ HA]. rewrite (Sum_ext n _ (fun k => Sum n (fun j => L i k * (L j k * x j)))) by (intros; now rewrite Sum_scal).
    rewrite Sum_swap. apply Sum_ext. intros j Hj. rewrite (HA i j Hi Hj), <- Sum_scal_r. apply Sum_ext. intros; ring. }
  pose proof (lower_unique n L z w r (proj1 F) SZ SW) as E.
  rewrite (Sum_ext n _ (fun i => Sum n (fun k => L i k * x i * y k))).
  - rewrite Sum_swap. apply Sum_ext. intros k Hk. rewrite Sum_scal_r. fold (w k). rewrite (E k Hk). ring.
  - intros i Hi. rewrite <- (SY i Hi), Rmult_comm, <- Sum_scal. apply Sum_ext. intros; ring.
Qed.
Lemma rect_entry p n m b : is_rect p n m b -> forall i j, (i < p)%nat -> (j < n)%nat -> entry m i j = b i j.
Proof. intros (_ & _ & H) i j Hi Hj. destruct (H i j Hi Hj) as (r & A & B). unfold entry. now rewrite A, B. Qed.
Lemma map_seq_ext {A} (f g : nat -> A) p : (forall i, (i < p)%nat -> f i = g i) -> map f (seq 0 p) = map g (seq 0 p).
Proof. intro H. apply map_ext_in. intros i Hi. apply in_seq in Hi. apply H. lia. Qed.
Lemma solves_ext n a x r r' : (forall i, (i < n)%nat -> r i = r' i) -> solves n a x r -> solves n a x r'.
Proof. intros E H i Hi. rewrite <- E by exact Hi. now apply H. Qed.
Lemma choose_solutions n a L (b : nat -> nat -> R) p : factor n a L -> exists y, forall i, (i < p)%nat -> solves n a (y i) (b i).
Proof.
  intro F. induction p as [|p [y IH]]; [exists (fun _ _ => 0); lia|]. destruct (factor_solution n a L (b p) F) as [x SX]. exists (fun i => if Nat.eqb i p then x else y i).
  intros i Hi. destruct (Nat.eqb_spec i p) as [->|N]; [exact SX|]. apply IH. lia.
Qed.
Theorem ref_predict : exact_predict ref_la.
Proof.
  intros K Ks Kss r n p a b d Hn Hp IK SY IS ISS LR. pose proof (rect_entry n n K a IK) as EN.
  assert (symmetric n (entry K)) as SE by (intros i j Hi Hj; rewrite !EN by assumption; auto).
  pose proof (proj1 IK) as LK. pose proof (proj1 IS) as LS. cbn [la_chol la_mean la_std ref_la]. rewrite LK, LS. split.
  - intros L F. destruct (chol n (entry K)) as [L'|] eqn:C; [|exfalso; apply (chol_none n _ SE C L); apply (factor_ext n a); [intros; symmetry; auto|exact F]].
    split; [reflexivity|]. pose proof (chol_ok n _ SE L' C) as F'. apply (factor_ext n _ a) in F'; [|exact EN].
    destruct (factor_solution n a L' (at_ r) F') as [x SX]. destruct (choose_solutions n a L' b p F') as [y HY]. exists x, y. split; [exact SX|]. split; [exact HY|].
    assert (forall i, (i < p)%nat -> solves n L' (fsolve n L' (entry Ks i)) (b i)) as SB.
    { intros i Hi. eapply solves_ext; [|apply fsolve_ok, F']. intros j Hj. now apply (rect_entry p n Ks b IS). }
    split.
    + apply map_seq_ext. intros i Hi. f_equal. symmetry. apply (dual_value n a L' x (fsolve n L' (at_ r)) (fsolve n L' (entry Ks i)) (b i) (at_ r) F' SX); [apply fsolve_ok, F'|auto].
    + apply map_seq_ext. intros i Hi. do 2 f_equal. rewrite (rect_entry p p Kss d ISS i i Hi Hi). f_equal. symmetry.
      apply (quad_value n a L' (y i) (fsolve n L' (entry Ks i)) (b i) F' (HY i Hi)). auto.
  - intro NF. destruct (chol n (entry K)) as [L'|] eqn:C; [|reflexivity]. exfalso. apply (NF L'). apply (factor_ext n (entry K)); [exact EN|]. now apply chol_ok.
Qed.

(** ** the best linear estimate *)
Lemma quad_sum n a w : quad n a w = Sum n (fun i => w i * Sum n (fun j => a i j * w j)).
Proof. unfold quad. apply Sum_ext. intros i _. rewrite <- Sum_scal. apply Sum_ext. intros; ring. Qed.
Lemma sym_swap n a x y : symmetric n a -> Sum n (fun i => y i * Sum n (fun j => a i j * x j)) = Sum n (fun i => Sum n (fun j => a i j * y j) * x i).
Proof.
  intro S. rewrite (Sum_ext n _ (fun i => Sum n (fun j => y i * (a i j * x j)))) by (intros; now rewrite Sum_scal). rewrite Sum_swap. apply Sum_ext. intros j Hj.
  rewrite <- Sum_scal_r. apply Sum_ext. intros i Hi. rewrite (S i j Hi Hj). ring.
Qed.
Lemma Sum_minus n f g : Sum n (fun i => f i - g i) = Sum n f - Sum n g.
Proof. rewrite (Sum_ext n _ (fun i => f i + (-1) * g i)) by (intros; ring). rewrite Sum_plus, Sum_scal. ring. Qed.
Lemma quad_diff n a y w b : symmetric n a -> solves n a y b ->
  quad n a (fun i => w i - y i) = quad n a w - 2 * Sum n (fun i => w i * b i) + Sum n (fun i => y i * b i).
Proof.
  intros S SY. rewrite !quad_sum.
  rewrite (Sum_ext n _ (fun i => (w i * Sum n (fun j => a i j * w j) - w i * b i) - (y i * Sum n (fun j => a i j * w j) - y i * b i))).
  - rewrite !Sum_minus. rewrite (sym_swap n a w y S). rewrite (Sum_ext n (fun i => Sum n (fun j => a i j * y j) * w i) (fun i => w i * b i)) by (intros i Hi; rewrite (SY i Hi); ring). ring.
  - intros i Hi. rewrite (Sum_ext n _ (fun j => a i j * w j - a i j * y j)) by (intros; ring). rewrite Sum_minus, (SY i Hi). ring.
Qed.
Lemma quad_solution n a y b : solves n a y b -> quad n a y = Sum n (fun i => y i * b i).
Proof. intro SY. rewrite quad_sum. apply Sum_ext. intros i Hi. now rewrite (SY i Hi). Qed.
Lemma solution_dual n a x y b r : symmetric n a -> solves n a x r -> solves n a y b -> Sum n (fun i => b i * x i) = Sum n (fun i => y i * r i).
Proof.
  intros S SX SY. rewrite (Sum_ext n _ (fun i => Sum n (fun j => a i j * y j) * x i)) by (intros i Hi; now rewrite (SY i Hi)). rewrite <- sym_swap by exact S.
  apply Sum_ext. intros i Hi. now rewrite (SX i Hi).
Qed.

Section Best.
  Variables (amp jit : R) (c : R -> R -> R) (data : list datum) (x : R).
  Let n := length data.
  Let a := data_cov amp c jit data.
  Let b := fun j => amp ^ 2 * c x (time_at data j).
  Hypothesis SY : symmetric n a.
  Hypothesis PSD : psd n a.
  Lemma err_min y : solves n a y b -> forall w, pred_err amp c jit data x w = pred_err amp c jit data x y + quad n a (fun i => w i - y i).
  Proof.
    intros HY w. rewrite (quad_diff n a y w b SY HY). unfold pred_err. fold n a. rewrite (quad_solution n a y b HY).
    change (fun j => w j * (amp ^ 2 * c x (time_at data j))) with (fun j => w j * b j). change (fun j => y j * (amp ^ 2 * c x (time_at data j))) with (fun j => y j * b j). ring.
  Qed.
  Lemma err_value y : solves n a y b -> pred_err amp c jit data x y = amp ^ 2 * c x x - Sum n (fun j => b j * y j).
  Proof.
    intro HY. unfold pred_err. fold n a. rewrite (quad_solution n a y b HY). change (fun j => y j * (amp ^ 2 * c x (time_at data j))) with (fun j => y j * b j).
    rewrite (Sum_ext n (fun j => b j * y j) (fun j => y j * b j)) by (intros; ring). ring.
  Qed.
End Best.

(** variance is not negative: the kernel is positive semidefinite on the data and the new point *)
Lemma err_nonneg amp jit c data x w : (forall s t, c s t = c t s) -> feat c -> 0 <= pred_err amp c jit data x w.
Proof.
  intros CS FE. set (n := length data). set (X := fun i => if Nat.ltb i n then time_at data i else x). set (W := fun i => if Nat.ltb i n then w i else -1).
  assert (0 <= amp ^ 2 * quad (S n) (fun i j => c (X i) (X j)) W) as P by (apply Rmult_le_pos; [apply pow2_ge_0|]; now apply (feat_psd c (S n) X)).
  assert (0 <= Sum n (fun i => w i ^ 2 * var_of jit (nth i data (mkDatum 0 0 0)))) as V.
  { apply Sum_nonneg. intros i _. apply Rmult_le_pos; [apply pow2_ge_0|apply var_nn]. }
  enough (pred_err amp c jit data x w = amp ^ 2 * quad (S n) (fun i j => c (X i) (X j)) W + Sum n (fun i => w i ^ 2 * var_of jit (nth i data (mkDatum 0 0 0)))) by lra.
  assert (forall i, (i < n)%nat -> X i = time_at data i /\ W i = w i) as L by (intros i Hi; unfold X, W; destruct (Nat.ltb_spec i n); [auto|lia]).
  assert (X n = x /\ W n = -1) as [Xn Wn] by (unfold X, W; rewrite Nat.ltb_irrefl; auto).
  unfold quad at 1. rewrite Sum_S.
  rewrite (Sum_ext n (fun i => Sum (S n) (fun j => W i * W j * c (X i) (X j))) (fun i => Sum n (fun j => w i * w j * c (time_at data i) (time_at data j)) - w i * c x (time_at data i))).
  2:{ intros i Hi. rewrite Sum_S. destruct (L i Hi) as [-> ->]. rewrite Xn, Wn. rewrite (CS (time_at data i) x).
      rewrite (Sum_ext n _ (fun j => w i * w j * c (time_at data i) (time_at data j))); [ring|]. intros j Hj. destruct (L j Hj) as [-> ->]. reflexivity. }
  rewrite Sum_S, Sum_minus, Xn, Wn. rewrite (Sum_ext n (fun j => -1 * W j * c x (X j)) (fun j => (-1) * (w j * c x (time_at data j)))) by (intros j Hj; destruct (L j Hj) as [-> ->]; ring).
  rewrite Sum_scal. unfold pred_err. fold n. rewrite (Sum_ext n (fun j => w j * (amp ^ 2 * c x (time_at data j))) (fun j => amp ^ 2 * (w j * c x (time_at data j)))) by (intros; ring). rewrite Sum_scal.
  unfold quad. rewrite (Sum_ext n (fun i => Sum n (fun j => w i * w j * data_cov amp c jit data i j)) (fun i => amp ^ 2 * Sum n (fun j => w i * w j * c (time_at data i) (time_at data j)) + w i ^ 2 * var_of jit (nth i data (mkDatum 0 0 0)))).
  2:{ intros i Hi. unfold data_cov. rewrite <- Sum_scal.
      rewrite (Sum_ext n _ (fun j => amp ^ 2 * (w i * w j * c (time_at data i) (time_at data j)) + if Nat.eqb i j then w i * w j * var_of jit (nth i data (mkDatum 0 0 0)) else 0)).
      - rewrite Sum_plus. rewrite (Sum_delta n i (fun j => w i * w j * var_of jit (nth i data (mkDatum 0 0 0))) Hi). f_equal. ring.
      - intros j Hj. unfold time_at. destruct (Nat.eqb i j); ring. }
  rewrite Sum_plus, Sum_scal. ring.
Qed.

(** ** compute_covmatrix(0.) *)
Definition finite_m (m : matrix) : Prop := forall r e, In r m -> In e r -> exists x, e = Fin x.
Lemma list_upd_same {A} (l : list A) : forall i x, nth_error l i = Some x -> list_upd l i x = l.
Proof. induction l as [|y l IH]; intros [|i] x H; cbn in *; try discriminate; [now injection H as ->|]. now rewrite (IH i x H). Qed.
Lemma fin_zero e : (exists x, e = Fin x) -> ext_add e (Fin (0 ^ 2)) = e.
Proof. intros [x ->]. cbn [ext_add]. f_equal. ring. Qed.
Lemma add_at_zero i r : (forall e, In e r -> exists x, e = Fin x) -> add_at i 0 r = r.
Proof. intro H. unfold add_at. destruct (nth_error r i) as [e|] eqn:E; [|reflexivity]. rewrite fin_zero by (apply H; eapply nth_error_In; eauto). now apply list_upd_same. Qed.
Lemma add_diag_zero m : finite_m m -> forall i n, add_diag_from i (repeat 0 n) m = m.
Proof.
  induction m as [|r m IH]; intros H i n; [now destruct n|]. destruct n as [|n]; [reflexivity|]. cbn [repeat add_diag_from]. rewrite add_at_zero by (intros; eapply H; [now left|eassumption]).
  f_equal. apply IH. intros r' e H1 H2. apply (H r' e); [now right|assumption].
Qed.
Lemma add_zero m : finite_m m -> add_errors (inl 0) m = m.
Proof.
  intro H. unfold add_errors. destruct (square m); [now apply add_diag_zero|]. destruct m as [|r [|r' m]]; try reflexivity. f_equal. rewrite <- (map_id r) at 2. apply map_ext_in. intros e He. apply fin_zero. eapply H; [now left|exact He].
Qed.

Lemma rect_cdist (en : R -> ext) (kf : R -> R -> R) xs ys : (forall x y, en (Rabs (x - y)) = Fin (kf x y)) ->
  is_rect (length xs) (length ys) (map (map en) (cdist xs ys)) (fun i j => kf (xat xs i) (xat ys j)) /\ finite_m (map (map en) (cdist xs ys)).
Proof.
  intro EN. unfold cdist. rewrite map_map. split; [split; [|split]|].
  - apply map_length.
  - intros r Hr. apply in_map_iff in Hr as (x & <- & _). now rewrite !map_length.
  - intros i j Hi Hj. rewrite nth_error_map, (xat_ok xs i Hi). cbn [option_map]. eexists. split; [reflexivity|]. rewrite map_map, nth_error_map, (xat_ok ys j Hj). cbn [option_map]. now rewrite EN.
  - intros r e Hr He. apply in_map_iff in Hr as (x & <- & _). rewrite map_map in He. apply in_map_iff in He as (y & <- & _). eexists. apply EN.
Qed.
Lemma factor_pd_psd n a L : factor n a L -> psd n a.
Proof. intros F w. rewrite (quad_factor n a L w F). apply Sum_nonneg. intros i _. apply pow2_ge_0. Qed.

Section Run.
  Variables (la : linalg) (fwd : forward) (f : R -> R) (g : gplike) (v : list row) (k : kstate) (data : list datum) (gam jit : R) (xp : list R).
  Variables (h : dict (option R)) (en : R -> ext) (amp : R) (c : R -> R -> R).
  Hypothesis LA : exact_predict la.
  Hypothesis HD : has_data (g_like g) data.
  Hypothesis DN : data <> [].
  Hypothesis XN : xp <> [].
  Hypothesis HF : fwd v (l_x (g_like g)) = Ok (map f (l_x (g_like g))).
  Hypothesis HG : vget v (l_gidx (g_like g)) = Ok gam.
  Hypothesis HJ : vget v (l_jidx (g_like g)) = Ok jit.
  Hypothesis U : update_kernel_params g v k = Ok (mkK h (k_cov k) (k_dist k)).
  Hypothesis RUN : forall cov d e, compute_covmatrix (g_kind g) (mkK h cov d) e = let m := add_errors e (map (map en) d) in (mkK h (Some m) d, Ok m).
  Hypothesis EN : forall x y, en (Rabs (x - y)) = Fin (amp ^ 2 * c x y).
  Hypothesis C1 : forall t, c t t = 1.

  Lemma k_sym x y : amp ^ 2 * c x y = amp ^ 2 * c y x.
  Proof. assert (Fin (amp ^ 2 * c x y) = Fin (amp ^ 2 * c y x)) as E by (rewrite <- !EN; now rewrite Rabs_minus_sym). now injection E. Qed.
  Lemma cov_rect : is_rect (length data) (length data) (add_errors (inr (bars data jit)) (map (map en) (cdist (l_x (g_like g)) (l_x (g_like g))))) (data_cov amp c jit data).
  Proof.
    assert (length (bars data jit) = length (l_x (g_like g))) as BL by (now apply bars_len).
    destruct (cov_matrix en (fun d => amp ^ 2 * c d 0) (l_x (g_like g)) (bars data jit)) as (M1 & M2 & M3); [|exact BL|].
    { intros d Hd. rewrite <- (Rabs_pos_eq d Hd) at 1. rewrite <- (Rminus_0_r d) at 1. apply EN. }
    rewrite (len_x g data HD) in *. split; [exact M1|]. split; [exact M2|]. intros i j Hi Hj. destruct (M3 i j Hi Hj) as (r & A & B). exists r. split; [exact A|]. rewrite B. do 2 f_equal.
    destruct HD as (EX & _ & _). unfold data_cov. fold dz. f_equal.
    - assert (Fin (amp ^ 2 * c (Rabs (xat (l_x (g_like g)) i - xat (l_x (g_like g)) j)) 0) = Fin (amp ^ 2 * c (d_t (nth i data dz)) (d_t (nth j data dz)))) as Q; [|now injection Q].
      rewrite <- !EN. rewrite Rminus_0_r, Rabs_Rabsolu. rewrite EX. unfold xat. change 0 with (d_t dz). now rewrite !map_nth.
    - destruct (Nat.eqb i j) eqn:E; [|reflexivity]. apply bars_sq; [exact Hi|apply var_nn].
  Qed.
  Lemma cov_sym : symmetric (length data) (data_cov amp c jit data).
  Proof. intros i j _ _. unfold data_cov. rewrite k_sym, Nat.eqb_sym. destruct (Nat.eqb_spec j i) as [->|]; reflexivity. Qed.
  Lemma xat_time i : (i < length data)%nat -> xat (l_x (g_like g)) i = time_at data i.
  Proof. intro Hi. destruct HD as (EX & _ & _). rewrite EX. unfold xat, time_at. fold dz. change 0 with (d_t dz). now rewrite map_nth. Qed.

  Lemma rect_finite p n m b : is_rect p n m b -> has_nan_or_inf m = false.
  Proof.
    intros (HL & HR & H). unfold has_nan_or_inf. destruct (existsb _ m) eqn:E; [|reflexivity]. exfalso. apply existsb_exists in E as (r & Hr & E). apply existsb_exists in E as (x & Hx & E).
    apply In_nth_error in Hr as [i Hi]. apply In_nth_error in Hx as [j Hj].
    assert (i < p)%nat as Li by (rewrite <- HL; apply nth_error_Some; congruence). assert (length r = n) as Lr by (eapply HR, nth_error_In; eauto).
    assert (j < n)%nat as Lj by (rewrite <- Lr; apply nth_error_Some; congruence). destruct (H i j Li Lj) as (r' & A & B). rewrite Hi in A. injection A as <-. rewrite Hj in B. injection B as ->. discriminate.
  Qed.

  Let Km := add_errors (inr (bars data jit)) (map (map en) (cdist (l_x (g_like g)) (l_x (g_like g)))).
  Let Ks := map (map en) (cdist xp (l_x (g_like g))).
  Let Kss := map (map en) (cdist xp xp).
  Let res := map (fun p => d_y p - gam - f (d_t p)) data.
  Lemma run_predict : snd (gp_predict fwd la g v k xp) = match la_chol la Km with Err e => Err e | Ok _ => Ok (la_mean la Km Ks res, la_std la Km Ks Kss) end.
  Proof.
    unfold gp_predict. rewrite U. rewrite (gp_res fwd f g v data gam HD HF HG). cbn [set_dist k_h k_cov k_dist]. rewrite (gp_bars g v data jit HD HJ). unfold set_dist. cbn [k_h k_cov k_dist]. rewrite RUN. cbv zeta.
    cbv beta iota. rewrite (rect_finite _ _ _ _ cov_rect). fold Km. unfold set_dist. cbn [k_h k_cov k_dist]. rewrite RUN. cbv zeta beta iota. cbn [k_h k_cov k_dist].
    destruct (rect_cdist en _ xp (l_x (g_like g)) EN) as [[R1 [R2 _]] R3]. rewrite (add_zero _ R3). fold Ks. destruct (la_chol la Km) as [u|e]; [|reflexivity].
    replace (n_cols_ok Ks (length (l_x (g_like g)))) with true; [|symmetry; unfold n_cols_ok; destruct Ks as [|r m] eqn:E; [reflexivity|]; apply Nat.eqb_eq, R2; fold Ks; rewrite E; now left].
    cbn [k_h k_cov k_dist]. rewrite RUN. cbv zeta. destruct (rect_cdist en _ xp xp EN) as [_ S3]. rewrite (add_zero _ S3). reflexivity.
  Qed.

  Theorem pred_value L : factor (length data) (data_cov amp c jit data) L -> exists x y,
    solves (length data) (data_cov amp c jit data) x (data_resid f gam data) /\
    (forall i, (i < length xp)%nat -> solves (length data) (data_cov amp c jit data) (y i) (fun j => amp ^ 2 * c (xat xp i) (time_at data j))) /\
    snd (gp_predict fwd la g v k xp) =
      Ok (map (fun i => Fin (Sum (length data) (fun j => amp ^ 2 * c (xat xp i) (time_at data j) * x j))) (seq 0 (length xp)),
          map (fun i => ext_sqrt (Fin (amp ^ 2 * c (xat xp i) (xat xp i) - Sum (length data) (fun j => amp ^ 2 * c (xat xp i) (time_at data j) * y i j)))) (seq 0 (length xp))).
  Proof.
    intro F. destruct (rect_cdist en _ xp (l_x (g_like g)) EN) as [R1 _]. destruct (rect_cdist en _ xp xp EN) as [S1 _]. fold Ks in R1. fold Kss in S1.
    assert (is_rect (length xp) (length data) Ks (fun i j => amp ^ 2 * c (xat xp i) (time_at data j))) as R2.
    { rewrite (len_x g data HD) in R1. destruct R1 as (A & B & D). split; [exact A|]. split; [exact B|]. intros i j Hi Hj. destruct (D i j Hi Hj) as (r & E1 & E2). exists r. rewrite <- xat_time by exact Hj. auto. }
    destruct (LA Km Ks Kss res (length data) (length xp) _ _ _ ltac:(destruct data; [easy|cbn; lia]) ltac:(destruct xp; [easy|cbn; lia]) cov_rect cov_sym R2 S1 ltac:(apply map_length)) as [L1 _].
    destruct (L1 L F) as (CH & x & y & SX & SY & M & S). exists x, y. split; [|split; [exact SY|]].
    - intros i Hi. rewrite (SX i Hi). now apply at_resid.
    - rewrite run_predict, CH, M, S. reflexivity.
  Qed.
  Theorem pred_error : (forall L, ~ factor (length data) (data_cov amp c jit data) L) -> snd (gp_predict fwd la g v k xp) = Err LinAlgError.
  Proof.
    intro NF. destruct (rect_cdist en _ xp (l_x (g_like g)) EN) as [R1 _]. destruct (rect_cdist en _ xp xp EN) as [S1 _]. fold Ks in R1. fold Kss in S1. rewrite (len_x g data HD) in R1.
    destruct (LA Km Ks Kss res (length data) (length xp) _ _ _ ltac:(destruct data; [easy|cbn; lia]) ltac:(destruct xp; [easy|cbn; lia]) cov_rect cov_sym R1 S1 ltac:(apply map_length)) as [_ L2].
    rewrite run_predict, (L2 NF). reflexivity.
  Qed.

  (** for a kernel [c'] that is [c] on the points in question *)
  Variable c' : R -> R -> R.
  Hypothesis FE : feat c'.
  Hypothesis CS' : forall s t, c' s t = c' t s.
  Hypothesis C1' : forall t, c' t t = 1.
  Hypothesis AG : forall p q, In p data -> In q data -> c (d_t p) (d_t q) = c' (d_t p) (d_t q).
  Hypothesis AGP : forall x p, In x xp -> In p data -> c x (d_t p) = c' x (d_t p).

  Lemma cov_agree i j : (i < length data)%nat -> (j < length data)%nat -> data_cov amp c jit data i j = data_cov amp c' jit data i j.
  Proof. intros Hi Hj. unfold data_cov. fold dz. rewrite AG by (apply nth_In; assumption). reflexivity. Qed.
  Theorem pred_thm : predicts la fwd f g v k data gam jit amp c' xp.
  Proof.
    split; [|split].
    - intros [L F']. assert (factor (length data) (data_cov amp c jit data) L) as F by (apply (factor_ext _ (data_cov amp c' jit data)); [intros; symmetry; now apply cov_agree|exact F']).
      destruct (pred_value L F) as (x & y & SX & SY & P).
      assert (symmetric (length data) (data_cov amp c' jit data)) as S' by (intros i j Hi Hj; rewrite <- !cov_agree by assumption; now apply cov_sym).
      assert (forall i, (i < length xp)%nat -> solves (length data) (data_cov amp c' jit data) (y i) (fun j => amp ^ 2 * c' (xat xp i) (time_at data j))) as SY'.
      { intros i Hi j Hj. assert (c (xat xp i) (time_at data j) = c' (xat xp i) (time_at data j)) as <- by (apply AGP; apply nth_In; assumption). rewrite <- (SY i Hi j Hj). apply Sum_ext. intros l Hl. now rewrite cov_agree. }
      assert (solves (length data) (data_cov amp c' jit data) x (data_resid f gam data)) as SX'.
      { intros i Hi. rewrite <- (SX i Hi). apply Sum_ext. intros l Hl. now rewrite cov_agree. }
      set (err := fun i => pred_err amp c' jit data (xat xp i) (y i)).
      assert (forall i, 0 <= err i) as NN by (intro i; now apply err_nonneg).
      exists (map (fun i => Sum (length data) (fun j => y i j * data_resid f gam data j)) (seq 0 (length xp))), (map (fun i => sqrt (err i)) (seq 0 (length xp))).
      split; [|rewrite !map_length, seq_length; split; [reflexivity|split; [reflexivity|]]].
      + rewrite P, !map_map. do 2 f_equal.
        * apply map_seq_ext. intros i Hi. f_equal. rewrite (Sum_ext _ _ (fun j => amp ^ 2 * c' (xat xp i) (time_at data j) * x j)).
          -- apply (solution_dual _ _ x (y i) _ _ S' SX' (SY' i Hi)).
          -- intros j Hj. assert (c (xat xp i) (time_at data j) = c' (xat xp i) (time_at data j)) as -> by (apply AGP; apply nth_In; assumption). reflexivity.
        * apply map_seq_ext. intros i Hi. rewrite (Sum_ext _ _ (fun j => amp ^ 2 * c' (xat xp i) (time_at data j) * y i j)).
          -- rewrite C1, <- (C1' (xat xp i)). rewrite <- (err_value amp jit c' data (xat xp i) (y i) (SY' i Hi)). fold (err i). unfold ext_sqrt. unfold rltb. destruct (Rlt_dec (err i) 0) as [B|]; [specialize (NN i); lra|reflexivity].
          -- intros j Hj. assert (c (xat xp i) (time_at data j) = c' (xat xp i) (time_at data j)) as -> by (apply AGP; apply nth_In; assumption). reflexivity.
      + intros i t m s Hx Hm Hs. assert (i < length xp)%nat as Hi by (apply nth_error_Some; congruence). assert (xat xp i = t) as <- by (unfold xat; now apply nth_error_nth).
        rewrite nth_error_map, (nth_error_nth' (seq 0 (length xp)) 0%nat), seq_nth in Hm by (rewrite ?seq_length; exact Hi). rewrite nth_error_map, (nth_error_nth' (seq 0 (length xp)) 0%nat), seq_nth in Hs by (rewrite ?seq_length; exact Hi).
        cbn in Hm, Hs. injection Hm as <-. injection Hs as <-. exists (y i). split; [|split; [reflexivity|split; [apply sqrt_pos|]]].
        * intro w'. rewrite (err_min amp jit c' data (xat xp i) S' (y i) (SY' i Hi) w'). pose proof (factor_pd_psd _ _ L F' (fun j => w' j - y i j)). lra.
        * rewrite <- Rsqr_pow2, Rsqr_sqrt by apply NN. reflexivity.
    - intro HV. apply pd_factor; [intros i j Hi Hj; rewrite <- !cov_agree by assumption; now apply cov_sym|].
      assert (psd (length data) (fun i j => amp ^ 2 * c' (time_at data i) (time_at data j))) as P by (apply psd_scal; [apply pow2_ge_0|]; now apply (feat_psd c' (length data) (time_at data))).
      pose proof (pd_diag (length data) _ (fun i => sqrt (var_of jit (nth i data dz))) P) as PD. eapply pd_ext; [|apply PD].
      + intros i j Hi Hj. unfold data_cov, time_at. fold dz. destruct (Nat.eqb i j); [|reflexivity]. f_equal. rewrite <- Rsqr_pow2, Rsqr_sqrt by apply var_nn. reflexivity.
      + intros i Hi. assert (0 < sqrt (var_of jit (nth i data dz))) by (apply sqrt_lt_R0, HV, nth_In, Hi). lra.
    - intro NF. apply pred_error. intros L F. apply (NF L). apply (factor_ext _ (data_cov amp c jit data)); [exact cov_agree|exact F].
  Qed.
End Run.

(** ** the kernels *)
Section PredKernels.
  Variables (la : linalg) (fwd : forward) (f : R -> R) (g : gplike) (v : list row) (k : kstate) (data : list datum) (gam jit : R) (xp : list R).
  Hypothesis LA : exact_predict la.
  Hypothesis WN : well_named g v.
  Hypothesis KR : kernel_ready g k.
  Hypothesis HD : has_data (g_like g) data.
  Hypothesis DN : data <> [].
  Hypothesis XN : xp <> [].
  Hypothesis HF : fwd v (l_x (g_like g)) = Ok (map f (l_x (g_like g))).
  Hypothesis HG : vget v (l_gidx (g_like g)) = Ok gam.
  Hypothesis HJ : vget v (l_jidx (g_like g)) = Ok jit.

  Theorem sqexp_predicts len amp : g_kind g = SqExp -> hyper g v "gp_length" (Some len) -> hyper g v "gp_amp" (Some amp) -> len <> 0 ->
    predicts la fwd f g v k data gam jit amp (fun s t => exp (- (s - t) ^ 2 / len ^ 2)) xp.
  Proof.
    intros KD H1 H2 NZ. destruct (update_ready g v k WN KR) as (h & U & G).
    apply (pred_thm la fwd f g v k data gam jit xp h (sqexp_entry (Some len) (Some amp)) amp (sq_k len)); auto.
    - intros cov d e. rewrite KD. unfold compute_covmatrix, hval, dget_res. cbn [k_h k_cov k_dist]. rewrite (G _ _ H1), (G _ _ H2). reflexivity.
    - intros x y. rewrite sqexp_fin by exact NZ. now rewrite sq_abs.
    - intro t. now apply sq_k_diag.
    - exact (sq_feat len NZ).
    - intros s t. do 3 f_equal. ring.
    - intro t. now apply (sq_k_diag len).
  Qed.
  Theorem per_predicts len amp per : g_kind g = Per -> hyper g v "gp_length" (Some len) -> hyper g v "gp_amp" (Some amp) -> hyper g v "gp_per" (Some per) -> len <> 0 -> per <> 0 ->
    predicts la fwd f g v k data gam jit amp (fun s t => exp (- sin (PI * (s - t) / per) ^ 2 / (2 * len ^ 2))) xp.
  Proof.
    intros KD H1 H2 H3 NZ NP. destruct (update_ready g v k WN KR) as (h & U & G).
    assert (forall s t, sin (PI * (s - t) / per) ^ 2 = sin (PI * (t - s) / per) ^ 2) as SS.
    { intros s t. replace (PI * (s - t) / per) with (- (PI * (t - s) / per)) by (field; exact NP). rewrite sin_neg. ring. }
    apply (pred_thm la fwd f g v k data gam jit xp h (per_entry (Some len) (Some amp) (Some per)) amp (per_k len per)); auto.
    - intros cov d e. rewrite KD. unfold compute_covmatrix, hval, dget_res. cbn [k_h k_cov k_dist]. rewrite (G _ _ H1), (G _ _ H2), (G _ _ H3). reflexivity.
    - intros x y. rewrite per_fin by assumption. unfold per_k. now rewrite sin_sq_abs.
    - intro t. now apply per_k_diag.
    - exact (per_feat len per NZ NP).
    - intros s t. now rewrite SS.
    - intro t. now apply (per_k_diag len per).
  Qed.
  Theorem quasi_predicts pl amp per el : g_kind g = QuasiPer -> hyper g v "gp_perlength" (Some pl) -> hyper g v "gp_amp" (Some amp) -> hyper g v "gp_per" (Some per) -> hyper g v "gp_explength" (Some el) ->
    0 < pl -> 0 < amp -> 0 < per -> 0 < el -> (forall p q, In p data -> In q data -> (d_t p - d_t q) ^ 2 <= 100 * el ^ 2) -> (forall x p, In x xp -> In p data -> (x - d_t p) ^ 2 <= 100 * el ^ 2) -> 1 <= 200 * pl ^ 2 ->
    predicts la fwd f g v k data gam jit amp (fun s t => exp (- (s - t) ^ 2 / el ^ 2) * exp (- sin (PI * (s - t) / per) ^ 2 / (2 * pl ^ 2))) xp.
  Proof.
    intros KD H1 H2 H3 H4 P1 P2 P3 P4 HC HX HP. destruct (update_ready g v k WN KR) as (h & U & G).
    assert (quasi_h h pl amp per el) as QH by (repeat split; apply G; assumption).
    assert (forall x y, (x - y) ^ 2 <= 100 * el ^ 2 -> quasi_c pl per el x y = quasi_k pl per el x y) as E.
    { intros x y Hd. unfold quasi_c, quasi_k. f_equal; f_equal; apply clip_id.
      - split; [|now apply t1_np]. unfold t1. apply (Rmult_le_reg_r (el ^ 2)); [nra|]. unfold Rdiv. rewrite Rmult_assoc, Rinv_l by nra. lra.
      - split; [|now apply t2_np]. unfold t2. set (s := sin _). assert (s ^ 2 <= 1).
        { unfold s. match goal with |- sin ?z ^ 2 <= 1 => pose proof (sin2_cos2 z) as Q; unfold Rsqr in Q; set (u := sin z) in *; set (w := cos z) in * end. nra. }
        apply (Rmult_le_reg_r (2 * pl ^ 2)); [nra|]. unfold Rdiv. rewrite Rmult_assoc, Rinv_l by nra. lra. }
    assert (forall s t, sin (PI * (s - t) / per) ^ 2 = sin (PI * (t - s) / per) ^ 2) as SS.
    { intros s t. replace (PI * (s - t) / per) with (- (PI * (t - s) / per)) by (field; lra). rewrite sin_neg. ring. }
    apply (pred_thm la fwd f g v k data gam jit xp h (fun d => Fin (quasi_entry pl amp per el d)) amp (quasi_c pl per el)); auto.
    - intros cov d e. rewrite KD. now rewrite (quasi_run _ _ _ _ _ _ _ _ QH).
    - intros x y. now rewrite quasi_abs.
    - intro t. now apply quasi_c_diag.
    - exact (quasi_feat pl per el P1 P3 P4).
    - intros s t. rewrite SS. f_equal. f_equal. f_equal. ring.
    - intro t. change (quasi_k pl per el t t = 1). rewrite <- E; [now apply quasi_c_diag|]. rewrite Rminus_eq_0. nra.
    - intros p q Hp Hq. now apply E, HC.
    - intros x p Hx Hp. now apply E, HX.
  Qed.
End PredKernels.

(** ** what a best estimate is at a time of the data *)
Definition unit_w (i j : nat) : R := if Nat.eqb i j then 1 else 0.
Lemma quad_unit n a i : (i < n)%nat -> quad n a (unit_w i) = a i i.
Proof.
  intro Hi. rewrite quad_sum. rewrite (Sum_ext n _ (fun l => if Nat.eqb i l then a l i else 0)); [now rewrite (Sum_delta n i (fun l => a l i) Hi)|].
  intros l Hl. unfold unit_w at 1. destruct (Nat.eqb_spec i l) as [<-|N]; [|ring]. rewrite Rmult_1_l. rewrite (Sum_ext n _ (fun j => if Nat.eqb i j then a i j else 0)); [apply (Sum_delta n i (fun j => a i j) Hi)|].
  intros j _. unfold unit_w. destruct (Nat.eqb i j); ring.
Qed.
Lemma unit_sum n i f : (i < n)%nat -> Sum n (fun j => unit_w i j * f j) = f i.
Proof. intro Hi. rewrite (Sum_ext n _ (fun j => if Nat.eqb i j then f j else 0)); [now apply Sum_delta|]. intros j _. unfold unit_w. destruct (Nat.eqb i j); ring. Qed.
Lemma err_unit amp c jit data i : (forall t, c t t = 1) -> (i < length data)%nat -> pred_err amp c jit data (time_at data i) (unit_w i) = var_of jit (nth i data dz).
Proof.
  intros C1 Hi. unfold pred_err. rewrite quad_unit by exact Hi. rewrite (unit_sum _ i (fun j => amp ^ 2 * c (time_at data i) (time_at data j)) Hi). unfold data_cov. rewrite Nat.eqb_refl. fold dz. unfold time_at. fold dz. rewrite !C1. ring.
Qed.
Lemma err_zero amp c jit data x : pred_err amp c jit data x (fun _ => 0) = amp ^ 2 * c x x.
Proof.
  unfold pred_err, quad. rewrite (Sum_ext _ (fun j => 0 * _) (fun _ => 0)) by (intros; ring). rewrite Sum_const0. rewrite (Sum_ext _ _ (fun _ => 0)); [rewrite Sum_const0; ring|].
  intros i _. rewrite (Sum_ext _ _ (fun _ => 0)) by (intros; ring). apply Sum_const0.
Qed.
Lemma parallelogram n a u w : quad n a (fun i => (u i + w i) / 2) = quad n a u / 2 + quad n a w / 2 - quad n a (fun i => u i - w i) / 4.
Proof.
  unfold quad. replace (Sum n (fun i => Sum n (fun j => u i * u j * a i j)) / 2 + Sum n (fun i => Sum n (fun j => w i * w j * a i j)) / 2 - Sum n (fun i => Sum n (fun j => (u i - w i) * (u j - w j) * a i j)) / 4)
    with (Sum n (fun i => / 2 * Sum n (fun j => u i * u j * a i j) + (/ 2 * Sum n (fun j => w i * w j * a i j) + (- / 4) * Sum n (fun j => (u i - w i) * (u j - w j) * a i j)))).
  - apply Sum_ext. intros i _. rewrite <- !Sum_scal, <- !Sum_plus. apply Sum_ext. intros j _. field.
  - rewrite !Sum_plus, !Sum_scal. field.
Qed.
Lemma err_mid amp c jit data x u w : pred_err amp c jit data x (fun i => (u i + w i) / 2) =
  pred_err amp c jit data x u / 2 + pred_err amp c jit data x w / 2 - quad (length data) (data_cov amp c jit data) (fun i => u i - w i) / 4.
Proof.
  unfold pred_err. rewrite parallelogram. set (n := length data). rewrite (Sum_ext n (fun j => (u j + w j) / 2 * (amp ^ 2 * c x (time_at data j))) (fun j => / 2 * (u j * (amp ^ 2 * c x (time_at data j))) + / 2 * (w j * (amp ^ 2 * c x (time_at data j))))) by (intros; field).
  rewrite Sum_plus, !Sum_scal. field.
Qed.
Theorem estimate_bounds amp c jit data res x mu sd : (forall t, c t t = 1) -> best_estimate amp c jit data res x mu sd ->
  sd ^ 2 <= amp ^ 2 /\ (forall p, In p data -> d_t p = x -> sd ^ 2 <= var_of jit p).
Proof.
  intros C1 (w & MIN & _ & _ & ->). split.
  - specialize (MIN (fun _ => 0)). rewrite err_zero, C1 in MIN. lra.
  - intros p Hp <-. apply In_nth_error in Hp as [i Hi]. assert (i < length data)%nat as Li by (apply nth_error_Some; congruence). specialize (MIN (unit_w i)).
    assert (nth i data dz = p) as E by (now apply nth_error_nth). assert (time_at data i = d_t p) as T by (unfold time_at; fold dz; now rewrite E). rewrite <- T in *. rewrite err_unit, E in MIN by assumption. exact MIN.
Qed.
Theorem estimate_exact amp c jit data res mu sd i p : (forall t, c t t = 1) -> pd (length data) (data_cov amp c jit data) -> nth_error data i = Some p -> var_of jit p = 0 ->
  best_estimate amp c jit data res (d_t p) mu sd -> mu = res i /\ sd = 0.
Proof.
  intros C1 PD Hi V0 BE. pose proof (estimate_bounds amp c jit data res (d_t p) mu sd C1 BE) as [_ B]. specialize (B p ltac:(eapply nth_error_In; eauto) eq_refl). rewrite V0 in B.
  destruct BE as (w & MIN & -> & S0 & SE). assert (sd = 0) as -> by nra. split; [|reflexivity].
  assert (i < length data)%nat as Li by (apply nth_error_Some; congruence). assert (nth i data dz = p) as E by (now apply nth_error_nth).
  assert (time_at data i = d_t p) as T by (unfold time_at; fold dz; now rewrite E). rewrite <- T in *.
  pose proof (err_unit amp c jit data i C1 Li) as EU. rewrite E, V0 in EU. pose proof (MIN (fun j => (w j + unit_w i j) / 2)) as M. rewrite err_mid, EU in M.
  assert (forall j, (j < length data)%nat -> w j = unit_w i j) as W.
  { intros j Hj. destruct (Req_EM_T (w j - unit_w i j) 0) as [Z|NZ]; [lra|]. specialize (PD (fun j => w j - unit_w i j) ltac:(exists j; auto)). nra. }
  rewrite (Sum_ext _ _ (fun j => unit_w i j * res j)) by (intros j Hj; now rewrite W). now apply unit_sum.
Qed.

(** ** residuals *)
Lemma map2_fin (a b : list R) : map2 ext_sub (map Fin a) (map Fin b) = map Fin (map2 Rminus a b).
Proof. revert b. induction a as [|x a IH]; intros [|y b]; try reflexivity. cbn. f_equal. apply IH. Qed.
Lemma map2_nth (a b : list R) : forall i x y, nth_error a i = Some x -> nth_error b i = Some y -> nth_error (map2 Rminus a b) i = Some (x - y).
Proof. revert b. induction a as [|x0 a IH]; intros [|y0 b] [|i] x y Ha Hb; try discriminate; cbn in *; [congruence|]. now apply IH. Qed.
Lemma map2_len (a b : list R) : length a = length b -> length (map2 Rminus a b) = length a.
Proof. revert b. induction a as [|x a IH]; intros [|y b] H; try discriminate; [reflexivity|]. cbn in *. f_equal. apply IH. lia. Qed.
Theorem residuals_value la fwd f g v k data gam jit amp c : has_data (g_like g) data -> fwd v (l_x (g_like g)) = Ok (map f (l_x (g_like g))) -> vget v (l_gidx (g_like g)) = Ok gam ->
  predicts la fwd f g v k data gam jit amp c (l_x (g_like g)) -> (exists L, factor (length data) (data_cov amp c jit data) L) ->
  exists rs, snd (gp_residuals fwd la g v k) = Ok (map Fin rs) /\ length rs = length data /\
    forall i p r, nth_error data i = Some p -> nth_error rs i = Some r -> exists mu sd, best_estimate amp c jit data (data_resid f gam data) (d_t p) mu sd /\ r = d_y p - gam - f (d_t p) - mu.
Proof.
  intros HD HF HG (P & _) FA. destruct (P FA) as (mu & sd & E & L1 & L2 & B). rewrite (len_x g data HD) in L1, L2.
  exists (map2 Rminus (map (fun p => d_y p - gam - f (d_t p)) data) mu). split; [|split].
  - unfold gp_residuals. destruct (gp_predict fwd la g v k (l_x (g_like g))) as [k1 o]. cbn [snd] in E. subst o. cbn [snd]. rewrite (gp_res fwd f g v data gam HD HF HG). cbn [bind]. rewrite !map_length, L1, Nat.eqb_refl. f_equal. apply map2_fin.
  - rewrite map2_len; rewrite map_length; auto.
  - intros i p r Hp Hr. assert (i < length data)%nat as Li by (apply nth_error_Some; congruence). destruct (nth_error mu i) as [m|] eqn:Em; [|apply nth_error_None in Em; lia]. destruct (nth_error sd i) as [s|] eqn:Es; [|apply nth_error_None in Es; lia].
    exists m, s. split; [apply (B i (d_t p) m s); [|exact Em|exact Es]; destruct HD as (-> & _ & _); now rewrite nth_error_map, Hp|].
    rewrite (map2_nth _ _ i (d_y p - gam - f (d_t p)) m) in Hr; [now injection Hr|now rewrite nth_error_map, Hp|exact Em].
Qed.
