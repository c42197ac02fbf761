(** C69: the value of the Gaussian process likelihood. *)
From Coq Require Import Reals String Arith Bool Lra Lia List.
From Verif Require Import Py PyFloat PyFacts Params Kepler Basis Likelihood Gp GpSpec PsdProofs GpProofs GpHist GpMore LikeSpec LikeDensity CholSpec Cholesky.
Import ListNotations.
Open Scope R_scope.

(** ** exact linear algebra exists *)
Definition entry (m : matrix) (i j : nat) : R :=
  match nth_error m i with Some r => match nth_error r j with Some (Fin x) => x | _ => 0 end | None => 0 end.
Definition ref_la : linalg :=
  mkLA (fun m r => if has_nan_or_inf m then Err ValueError
                   else match chol (length m) (entry m) with
                        | Some L => Ok (Sum (length m) (fun i => fsolve (length m) L (at_ r) i ^ 2))
                        | None => Err LinAlgError
                        end)
       (fun m => match chol (length m) (entry m) with Some L => Fin (2 * Sum (length m) (fun i => ln (L i i))) | None => NaN end)
       (fun m => match chol (length m) (entry m) with Some _ => Ok tt | None => Err LinAlgError end)
       (fun m ms r => match chol (length m) (entry m) with
                      | Some L => map (fun i => Fin (Sum (length m) (fun k => fsolve (length m) L (entry ms i) k * fsolve (length m) L (at_ r) k))) (seq 0 (length ms))
                      | None => [] end)
       (fun m ms mss => match chol (length m) (entry m) with
                        | Some L => map (fun i => ext_sqrt (Fin (entry mss i i - Sum (length m) (fun k => fsolve (length m) L (entry ms i) k ^ 2)))) (seq 0 (length ms))
                        | None => [] end).
Lemma entry_is n m a : is_matrix n m a -> forall i j, (i < n)%nat -> (j < n)%nat -> entry m i j = a i j.
Proof. intros (_ & _ & H) i j Hi Hj. destruct (H i j Hi Hj) as (r & A & B). unfold entry. now rewrite A, B. Qed.
Lemma matrix_finite n m a : is_matrix n m a -> has_nan_or_inf m = false.
Proof.
  intros (HL & HR & H). unfold has_nan_or_inf. destruct (existsb _ m) eqn:E; [|reflexivity]. exfalso. apply existsb_exists in E as (r & Hr & E). apply existsb_exists in E as (x & Hx & E).
  apply In_nth_error in Hr as [i Hi]. apply In_nth_error in Hx as [j Hj].
  assert (i < n)%nat as Li by (rewrite <- HL; apply nth_error_Some; congruence). assert (length r = n) as Lr by (eapply HR, nth_error_In; eauto).
  assert (j < n)%nat as Lj by (rewrite <- Lr; apply nth_error_Some; congruence). destruct (H i j Li Lj) as (r' & A & B). rewrite Hi in A. injection A as <-. rewrite Hj in B. injection B as ->. discriminate.
Qed.
Lemma factor_ext n a b L : (forall i j, (i < n)%nat -> (j < n)%nat -> a i j = b i j) -> factor n a L -> factor n b L.
Proof. intros E [H1 H2]. split; [exact H1|]. intros i j Hi Hj. rewrite <- E by assumption. auto. Qed.
Theorem ref_exact : exact_linalg ref_la.
Proof.
  intros m r. split.
  - intros n a Hn IM SY LR. pose proof (entry_is n m a IM) as EN. pose proof (matrix_finite n m a IM) as MF. pose proof (proj1 IM) as LM.
    assert (symmetric n (entry m)) as SE by (intros i j Hi Hj; rewrite !EN by assumption; auto).
    cbn [la_quad la_logdet ref_la]. rewrite MF, LM. split.
    + intros L F. destruct (chol n (entry m)) as [L'|] eqn:C.
      * pose proof (chol_ok n _ SE L' C) as F'. apply (factor_ext n _ a) in F'; [|exact EN]. pose proof (factor_unique n a L' L F' F) as U.
        destruct (factor_solution n a L' (at_ r) F') as [x SX]. exists x. split; [exact SX|]. split.
        -- f_equal. symmetry. apply (quad_value n a L'); [exact F'|exact SX|]. apply fsolve_ok, F'.
        -- f_equal. f_equal. apply Sum_ext. intros i Hi. now rewrite U.
      * exfalso. apply (chol_none n _ SE C L). apply (factor_ext n a); [intros; symmetry; auto|exact F].
    + intro NF. destruct (chol n (entry m)) as [L'|] eqn:C; [|reflexivity]. exfalso. apply (NF L'). apply (factor_ext n (entry m)); [exact EN|]. now apply chol_ok.
  - intros (row & x & Hr & Hx & F). cbn [la_quad ref_la]. replace (has_nan_or_inf m) with true; [reflexivity|]. symmetry. unfold has_nan_or_inf. apply existsb_exists. exists row. split; [exact Hr|].
    apply existsb_exists. exists x. split; [exact Hx|]. now rewrite F.
Qed.

(** ** update_kernel_params *)
Lemma existsb_in (s : string) l : existsb (String.eqb s) l = true <-> In s l.
Proof. rewrite existsb_exists. split; [intros (x & H & E); apply String.eqb_eq in E; now subst|]. intro H. exists s. split; [auto|apply String.eqb_refl]. Qed.
Lemma upd_ok g v : well_named g v -> forall names h, (forall n, In n names -> In n (dkeys (l_indices (g_like g)))) -> (forall s, In s (needed (g_kind g)) -> In s (dkeys h)) ->
  exists a, for_each names (update_step (g_hnames g) (l_indices (g_like g)) v) h = Ok a /\
    forall s x, (dget h s = Some x /\ (forall n, In n names -> In n (g_hnames g) -> hkey n <> Ok s)) \/
      (exists n i r, In n names /\ In n (g_hnames g) /\ hkey n = Ok s /\ dget (l_indices (g_like g)) n = Some i /\ nth_error v i = Some r /\ r_val r = x) -> dget a s = Some x.
Proof.
  intros [WN WU]. induction names as [|n names IH]; intros h HN HH; [exists h; split; [reflexivity|]; intros s x [[A _]|(n & i & r & [] & _)]; exact A|].
  cbn [for_each]. unfold update_step at 1. destruct (existsb (String.eqb n) (g_hnames g)) eqn:EX.
  - apply existsb_in in EX. destruct (WN n EX (HN n (or_introl eq_refl))) as (s0 & i & r & HK & HS & DI & NR). rewrite HK. cbn [bind]. destruct (dget_some_key h s0 (HH s0 HS)) as [o Ho]. rewrite Ho.
    unfold dget_res. rewrite DI. cbn [bind]. rewrite NR. cbn [bind].
    destruct (IH (dset h s0 (r_val r))) as (a & E & G).
    { intros; apply HN; now right. }
    { intros s Hs. destruct (String.eqb_spec s s0) as [->|NE]; [apply (dget_key _ _ (r_val r)), dget_dset_same|]. destruct (dget_some_key h s (HH s Hs)) as [o' Ho']. apply (dget_key _ _ o'). now rewrite dget_dset_other. }
    exists a. split; [exact E|]. intros s x [[A B]|(n' & i' & r' & HI & HN' & HK' & DI' & NR' & RV)].
    + apply G. left. assert (s <> s0) as NE by (intros ->; exact (B n (or_introl eq_refl) EX HK)). split; [now rewrite dget_dset_other|]. intros n'' H1 H2. apply B; [now right|exact H2].
    + destruct (in_dec string_dec n' names) as [HI'|NI]; [apply G; right; exists n', i', r'; auto 10|].
      destruct HI as [->|HI]; [|contradiction]. rewrite HK in HK'. injection HK' as <-. rewrite DI in DI'. injection DI' as <-. rewrite NR in NR'. injection NR' as <-.
      apply G. left. rewrite <- RV. split; [apply dget_dset_same|]. intros n'' H1 H2 H3. rewrite (WU n'' n' s0 H2 EX H3 HK) in H1. contradiction.
  - cbn [bind]. destruct (IH h) as (a & E & G); [intros; apply HN; now right|exact HH|]. exists a. split; [exact E|].
    assert (~ In n (g_hnames g)) as NI by (intro X; apply existsb_in in X; congruence).
    intros s x [[A B]|(n' & i' & r' & [->|HI] & HN' & Q)]; [| contradiction|].
    + apply G. left. split; [exact A|]. intros n'' H1 H2. apply B; [now right|exact H2].
    + apply G. right. exists n', i', r'. tauto.
Qed.
Lemma update_ready g v k : well_named g v -> kernel_ready g k -> exists h, update_kernel_params g v k = Ok (mkK h (k_cov k) (k_dist k)) /\ forall s x, hyper g v s x -> dget h s = Some x.
Proof.
  intros WN [_ KR]. destruct (upd_ok g v WN (dkeys (l_indices (g_like g))) (k_h k) (fun n H => H) KR) as (h & E & G). exists h. unfold update_kernel_params. rewrite E. split; [reflexivity|].
  intros s x (name & i & r & H1 & H2 & H3 & H4 & H5 & H6). apply G. right. exists name, i, r. auto 10.
Qed.

(** ** the value *)
Definition dz : datum := mkDatum 0 0 0.
Section Value.
  Variables (la : linalg) (fwd : forward) (f : R -> R) (g : gplike) (v : list row) (k : kstate) (data : list datum) (gam jit : R).
  Hypothesis LA : exact_linalg la.
  Hypothesis WN : well_named g v.
  Hypothesis KR : kernel_ready g k.
  Hypothesis HD : has_data (g_like g) data.
  Hypothesis HF : fwd v (l_x (g_like g)) = Ok (map f (l_x (g_like g))).
  Hypothesis HG : vget v (l_gidx (g_like g)) = Ok gam.
  Hypothesis HJ : vget v (l_jidx (g_like g)) = Ok jit.

  Definition bars : list R := map (fun p => sqrt (var_of jit p)) data.
  Lemma gp_bars : rv_errorbars (g_like g) v = Ok bars.
  Proof. unfold rv_errorbars. rewrite HJ. cbn [bind]. destruct HD as (_ & _ & ->). rewrite map_map. reflexivity. Qed.
  Lemma gp_res : gp_resids fwd (g_like g) v = Ok (map (fun p => d_y p - gam - f (d_t p)) data).
  Proof.
    unfold gp_resids. rewrite HG, HF. cbn [bind]. destruct HD as (-> & -> & _). rewrite !map_length, Nat.eqb_refl. f_equal. rewrite !map_map. clear. induction data as [|p l IH]; [reflexivity|]. cbn. f_equal. exact IH.
  Qed.
  Lemma at_resid i : (i < length data)%nat -> at_ (map (fun p => d_y p - gam - f (d_t p)) data) i = data_resid f gam data i.
  Proof. intro H. unfold at_, data_resid. rewrite (nth_indep _ 0 ((fun p => d_y p - gam - f (d_t p)) dz)) by now rewrite map_length. now rewrite (map_nth (fun p => d_y p - gam - f (d_t p))). Qed.
  Lemma bars_sq i : (i < length data)%nat -> 0 <= var_of jit (nth i data dz) -> xat bars i ^ 2 = var_of jit (nth i data dz).
  Proof.
    intros H P. unfold xat, bars. rewrite (nth_indep _ 0 ((fun p => sqrt (var_of jit p)) dz)) by now rewrite map_length. rewrite (map_nth (fun p => sqrt (var_of jit p))).
    rewrite <- Rsqr_pow2. now apply Rsqr_sqrt.
  Qed.
  Lemma var_nn p : 0 <= var_of jit p.
  Proof. unfold var_of. pose proof (pow2_ge_0 (d_err p)). pose proof (pow2_ge_0 jit). lra. Qed.
  Lemma len_x : length (l_x (g_like g)) = length data.
  Proof. destruct HD as (-> & _). apply map_length. Qed.

  Lemma run_logprob h k2 m : update_kernel_params g v k = Ok h -> compute_covmatrix (g_kind g) h (inr bars) = (k2, Ok m) ->
    snd (gp_logprob fwd la g v k) = gp_try la (k_cov k2) (map (fun p => d_y p - gam - f (d_t p)) data) (length data).
  Proof. intros U C. unfold gp_logprob. rewrite U, gp_res, gp_bars, C. cbn [snd]. now rewrite len_x. Qed.

  Lemma try_value m a : (0 < length data)%nat -> is_matrix (length data) m a -> symmetric (length data) a ->
    let out := gp_try la (Some m) (map (fun p => d_y p - gam - f (d_t p)) data) (length data) in
    (forall L z, factor (length data) a L -> solves (length data) L z (data_resid f gam data) -> out = Ok (Fin (mvn (length data) L z))) /\
    ((forall L, ~ factor (length data) a L) -> out = Ok NInf).
  Proof.
    intros N0 IM SY out. destruct (LA m (map (fun p => d_y p - gam - f (d_t p)) data)) as [LA1 _]. specialize (LA1 (length data) a N0 IM SY ltac:(apply map_length)). destruct LA1 as [LA1 LA2]. unfold out, gp_try. split.
    - intros L z F SZ. destruct (LA1 L F) as (x & SX & -> & ->). cbn [bind]. do 2 f_equal. rewrite mvn_value by apply F. cbn [ext_add ext_mul].
      rewrite (quad_value (length data) a L x z (at_ (map (fun p => d_y p - gam - f (d_t p)) data)) F SX); [reflexivity|]. intros i Hi. rewrite at_resid by exact Hi. now apply SZ.
    - intro NF. rewrite (LA2 NF). reflexivity.
  Qed.

  (** a covariance matrix as in C30 *)
  Lemma spec_entries amp c m : cov_spec (l_x (g_like g)) bars amp c m -> (forall t, c t t = 1) -> is_matrix (length data) m (data_cov amp c jit data) /\ symmetric (length data) (data_cov amp c jit data) /\
    ((forall p, In p data -> 0 < var_of jit p) -> pd (length data) (data_cov amp c jit data)).
  Proof.
    intros (a & IM & OFF & (SY & DG & _) & _ & PD) C1. rewrite len_x in *.
    assert (forall i j, (i < length data)%nat -> (j < length data)%nat -> a i j = data_cov amp c jit data i j) as E.
    { intros i j Hi Hj. unfold data_cov. fold dz. destruct (Nat.eqb_spec i j) as [<-|N].
      - rewrite C1, Rmult_1_r. rewrite (DG i (xat bars i) Hi) by (apply xat_ok; unfold bars; now rewrite map_length). f_equal. apply bars_sq; [exact Hi|apply var_nn].
      - rewrite Rplus_0_r. apply OFF; [| |exact N]; destruct HD as (-> & _ & _); rewrite nth_error_map.
        + rewrite (nth_error_nth' data dz Hi). reflexivity.
        + rewrite (nth_error_nth' data dz Hj). reflexivity. }
    split; [|split].
    - destruct IM as (I1 & I2 & I3). split; [exact I1|]. split; [exact I2|]. intros i j Hi Hj. rewrite <- E by assumption. now apply I3.
    - intros i j Hi Hj. rewrite <- !E by assumption. now apply SY.
    - intros HV c' Hc'. assert (forall e, In e bars -> e <> 0) as NZ.
      { intros e He. apply in_map_iff in He as (p & <- & Hp). specialize (HV p Hp). apply sqrt_lt_R0 in HV. lra. }
      specialize (PD NZ c' Hc'). unfold quad in *. rewrite (Sum_ext _ _ (fun i => Sum (length data) (fun j => c' i * c' j * a i j))); [exact PD|]. intros i Hi. apply Sum_ext. intros j Hj. now rewrite E.
  Qed.

  Lemma spec_density h k2 m amp c : data <> [] -> update_kernel_params g v k = Ok h -> compute_covmatrix (g_kind g) h (inr bars) = (k2, Ok m) -> k_cov k2 = Some m ->
    cov_spec (l_x (g_like g)) bars amp c m -> (forall t, c t t = 1) -> is_density la fwd f g v k data gam jit amp c.
  Proof.
    intros DN U C K CS C1. destruct (spec_entries amp c m CS C1) as (IM & SY & PD). assert (0 < length data)%nat as N0 by (destruct data; [easy|cbn; lia]).
    destruct (try_value m _ N0 IM SY) as [T1 T2]. unfold is_density. rewrite (run_logprob _ _ _ U C), K. split; [exact T1|]. split; [|exact T2].
    intro HV. destruct (pd_factor _ _ SY (PD HV)) as [L F]. exists L, (fsolve (length data) L (data_resid f gam data)). split; [exact F|]. apply fsolve_ok, F.
  Qed.
  Lemma bars_len : length bars = length (l_x (g_like g)).
  Proof. unfold bars. now rewrite map_length, len_x. Qed.
End Value.

Lemma list_nth_map {A} (l : list A) d : map (fun i => nth i l d) (seq 0 (length l)) = l.
Proof.
  induction l as [|a l IH]; [reflexivity|]. cbn [length seq map]. f_equal. rewrite <- seq_shift, map_map. exact IH.
Qed.
Lemma list_sum (F : datum -> R) l : rsum (map F l) = Sum (length l) (fun i => F (nth i l dz)).
Proof. unfold Sum. rewrite <- (list_nth_map l dz) at 1. now rewrite map_map. Qed.
Lemma zero_div : ext_div (Fin 0) (Fin 0) = NaN.
Proof. unfold ext_div, inf_of, reqb, rltb. destruct (Req_EM_T 0 0); [|easy]. destruct (Rlt_dec 0 0); [lra|]. reflexivity. Qed.

Section Kernels.
  Variables (la : linalg) (fwd : forward) (f : R -> R) (g : gplike) (v : list row) (k : kstate) (data : list datum) (gam jit : R).
  Hypothesis LA : exact_linalg la.
  Hypothesis WN : well_named g v.
  Hypothesis KR : kernel_ready g k.
  Hypothesis HD : has_data (g_like g) data.
  Hypothesis DN : data <> [].
  Hypothesis HF : fwd v (l_x (g_like g)) = Ok (map f (l_x (g_like g))).
  Hypothesis HG : vget v (l_gidx (g_like g)) = Ok gam.
  Hypothesis HJ : vget v (l_jidx (g_like g)) = Ok jit.

  Theorem sqexp_density len amp : g_kind g = SqExp -> hyper g v "gp_length" (Some len) -> hyper g v "gp_amp" (Some amp) -> len <> 0 ->
    is_density la fwd f g v k data gam jit amp (fun s t => exp (- (s - t) ^ 2 / len ^ 2)).
  Proof.
    intros KD H1 H2 NZ. destruct (update_ready g v k WN KR) as (h & U & G). destruct KR as [KD' _]. rewrite KD' in U.
    destruct (sqexp_cov h (k_cov k) (cdist (l_x (g_like g)) (l_x (g_like g))) (l_x (g_like g)) (bars data jit) len amp (G _ _ H1) (G _ _ H2) NZ (bars_len g data jit HD)) as (m & C & CS).
    rewrite <- KD in C. eapply spec_density; try eassumption; [reflexivity|]. intro t. apply (sq_k_diag len t NZ).
  Qed.
  Theorem per_density len amp per : g_kind g = Per -> hyper g v "gp_length" (Some len) -> hyper g v "gp_amp" (Some amp) -> hyper g v "gp_per" (Some per) -> len <> 0 -> per <> 0 ->
    is_density la fwd f g v k data gam jit amp (fun s t => exp (- sin (PI * (s - t) / per) ^ 2 / (2 * len ^ 2))).
  Proof.
    intros KD H1 H2 H3 NZ NP. destruct (update_ready g v k WN KR) as (h & U & G). destruct KR as [KD' _]. rewrite KD' in U.
    destruct (per_cov h (k_cov k) (cdist (l_x (g_like g)) (l_x (g_like g))) (l_x (g_like g)) (bars data jit) len amp per (G _ _ H1) (G _ _ H2) (G _ _ H3) NZ NP (bars_len g data jit HD)) as (m & C & CS).
    rewrite <- KD in C. eapply spec_density; try eassumption; [reflexivity|]. intro t. apply (per_k_diag len per t NZ).
  Qed.
  Theorem quasi_density pl amp per el : g_kind g = QuasiPer -> hyper g v "gp_perlength" (Some pl) -> hyper g v "gp_amp" (Some amp) -> hyper g v "gp_per" (Some per) -> hyper g v "gp_explength" (Some el) ->
    0 < pl -> 0 < amp -> 0 < per -> 0 < el -> (forall p q, In p data -> In q data -> (d_t p - d_t q) ^ 2 <= 100 * el ^ 2) -> 1 <= 200 * pl ^ 2 ->
    is_density la fwd f g v k data gam jit amp (fun s t => exp (- (s - t) ^ 2 / el ^ 2) * exp (- sin (PI * (s - t) / per) ^ 2 / (2 * pl ^ 2))).
  Proof.
    intros KD H1 H2 H3 H4 P1 P2 P3 P4 HC HP. destruct (update_ready g v k WN KR) as (h & U & G). destruct KR as [KD' _]. rewrite KD' in U.
    assert (quasi_h h pl amp per el) as QH by (repeat split; apply G; assumption).
    destruct (quasi_unclipped h (k_cov k) (cdist (l_x (g_like g)) (l_x (g_like g))) (l_x (g_like g)) (bars data jit) pl amp per el QH P1 P2 P3 P4 (bars_len g data jit HD)) as (m & C & CS).
    { destruct HD as (-> & _ & _). intros x y Hx Hy. apply in_map_iff in Hx as (p & <- & Hp). apply in_map_iff in Hy as (q & <- & Hq). auto. }
    { exact HP. }
    rewrite <- KD in C. eapply spec_density; try eassumption; [reflexivity|]. intro t.
    replace (- (t - t) ^ 2 / el ^ 2) with 0 by (field; lra). rewrite Rminus_eq_0. replace (PI * 0 / per) with 0 by (field; lra). rewrite sin_0.
    replace (- 0 ^ 2 / (2 * pl ^ 2)) with 0 by (field; lra). rewrite exp_0. ring.
  Qed.

  (** without correlation: the likelihood of independent normal errors *)
  Lemma white_density amp c : amp = 0 -> (forall p, In p data -> 0 < var_of jit p) -> is_density la fwd f g v k data gam jit amp c ->
    snd (gp_logprob fwd la g v k) = Ok (Fin (gauss_loglike f gam jit data)).
  Proof.
    intros -> HV (D1 & _). set (s := fun i => sqrt (var_of jit (nth i data dz))). set (L := fun i j => if Nat.eqb i j then s i else 0). set (z := fun i => data_resid f gam data i / s i).
    assert (forall i, (i < length data)%nat -> 0 < s i /\ s i * s i = var_of jit (nth i data dz)) as SP.
    { intros i Hi. assert (0 < var_of jit (nth i data dz)) as P by (apply HV, nth_In, Hi). split; [now apply sqrt_lt_R0|]. apply sqrt_sqrt. lra. }
    rewrite (D1 L z).
    - do 2 f_equal. unfold gauss_loglike. rewrite list_sum. unfold mvn. apply Sum_ext. intros i Hi. destruct (SP i Hi) as [P1 P2]. f_equal.
      unfold L, std_normal, normal_pdf. rewrite Nat.eqb_refl. fold dz. rewrite <- P2. unfold z, data_resid. fold dz.
      pose proof PI_RGT_0. rewrite (sqrt_mult (2 * PI) (s i * s i)) by nra. rewrite (sqrt_square (s i)) by lra. assert (0 < sqrt (2 * PI)) by (apply sqrt_lt_R0; lra).
      set (r := d_y (nth i data dz) - gam - f (d_t (nth i data dz))). replace (- ((r / s i) ^ 2 / 2)) with (- (r ^ 2 / (2 * (s i * s i)))) by (field; lra). field. split; lra.
    - split; [split|].
      + intros i Hi. unfold L. rewrite Nat.eqb_refl. now apply SP.
      + intros i j Hij Hj. unfold L. destruct (Nat.eqb_spec i j); [lia|reflexivity].
      + intros i j Hi Hj. unfold data_cov. fold dz. rewrite (Sum_ext _ _ (fun k => if Nat.eqb i k then s i * L j i else 0)).
        * rewrite (Sum_delta _ i (fun _ => s i * L j i) Hi). unfold L. destruct (Nat.eqb_spec i j) as [<-|N].
          -- rewrite Nat.eqb_refl. rewrite (proj2 (SP i Hi)). ring.
          -- destruct (Nat.eqb_spec j i); [lia|ring].
        * intros k' Hk'. unfold L at 1. destruct (Nat.eqb_spec i k') as [<-|N]; [reflexivity|ring].
    - intros i Hi. rewrite (Sum_ext _ _ (fun k => if Nat.eqb i k then s i * z i else 0)).
      + rewrite (Sum_delta _ i (fun _ => s i * z i) Hi). unfold z. field. destruct (SP i Hi). lra.
      + intros k' Hk'. unfold L. destruct (Nat.eqb_spec i k') as [<-|N]; [reflexivity|ring].
  Qed.
  Theorem sqexp_white len : g_kind g = SqExp -> hyper g v "gp_length" (Some len) -> hyper g v "gp_amp" (Some 0) -> len <> 0 -> (forall p, In p data -> 0 < var_of jit p) ->
    snd (gp_logprob fwd la g v k) = Ok (Fin (gauss_loglike f gam jit data)).
  Proof. intros KD H1 H2 NZ HV. apply (white_density 0 (fun s t => exp (- (s - t) ^ 2 / len ^ 2))); [reflexivity|exact HV|]. now apply sqexp_density. Qed.

  (** a length of zero gives entries nan *)
  Theorem sqexp_nan amp : g_kind g = SqExp -> hyper g v "gp_length" (Some 0) -> hyper g v "gp_amp" (Some amp) -> snd (gp_logprob fwd la g v k) = Ok NInf.
  Proof.
    intros KD H1 H2. destruct (update_ready g v k WN KR) as (h & U & G). destruct KR as [KD' _]. rewrite KD' in U.
    assert (exists m, compute_covmatrix (g_kind g) (mkK h (k_cov k) (cdist (l_x (g_like g)) (l_x (g_like g)))) (inr (bars data jit)) = (mkK h (Some m) (cdist (l_x (g_like g)) (l_x (g_like g))), Ok m) /\
      exists row x, In row m /\ In x row /\ isfinite x = false) as (m & C & BAD).
    { rewrite KD. unfold compute_covmatrix, hval, dget_res. cbn [k_h k_cov k_dist]. rewrite (G _ _ H1), (G _ _ H2). unfold with_cov. cbn [k_h k_dist]. eexists. split; [reflexivity|].
      set (m0 := map (map (sqexp_entry (Some 0) (Some amp))) (cdist (l_x (g_like g)) (l_x (g_like g)))).
      destruct HD as (EX & _ & _). destruct data as [|p0 data']; [easy|]. cbn [map] in EX.
      assert (exists r0 m', m0 = (NaN :: r0) :: m') as (r0 & m' & E0).
      { unfold m0. rewrite EX. cbn [cdist map]. unfold cdist. cbn [map]. exists (map (sqexp_entry (Some 0) (Some amp)) (map (fun b => Rabs (d_t p0 - b)) (map d_t data'))). eexists. f_equal. f_equal.
        unfold sqexp_entry, fl. rewrite Rminus_eq_0, Rabs_R0. replace (- 0 ^ 2) with 0 by ring. replace (ext_mul (Fin 0) (Fin 0)) with (Fin 0) by (cbn [ext_mul]; f_equal; ring).
        rewrite zero_div. reflexivity. }
      fold m0. rewrite E0. unfold add_errors. destruct (square _ && _).
      - unfold bars. cbn [map add_diag_from]. eexists. exists NaN. split; [left; reflexivity|]. split; [|reflexivity]. unfold add_at. cbn [nth_error list_upd]. left. reflexivity.
      - eexists. exists NaN. split; [left; reflexivity|]. split; [left; reflexivity|reflexivity]. }
    rewrite (run_logprob la fwd f g v k data gam jit HD HF HG HJ _ _ _ U C). cbn [k_cov]. unfold gp_try. destruct (LA m (map (fun p => d_y p - gam - f (d_t p)) data)) as [_ LV]. rewrite (LV BAD). reflexivity.
  Qed.
End Kernels.

(** ** an example: two points *)
Definition xg_data (t : R) (e : R) : list datum := [mkDatum 0 1 e; mkDatum t 2 e].
Definition xg_gp (t e : R) : gplike := mkGP (mkLike [0; t] [1; 2] [e; e] "gamma" "jit" 0 1 "" [] [] [] GpMore.ex_ps0 GpMore.sidx) GpMore.snames SqExp.
Definition xg_k (t : R) : kstate := mkK (GpMore.sh 1 1) None (cdist [0; t] [0; t]).
Lemma xg_hyps t e gam jit len amp : let g := xg_gp t e in let v := GpMore.srow gam jit len amp in
  well_named g v /\ kernel_ready g (xg_k t) /\ has_data (g_like g) (xg_data t e) /\ GpMore.zero_fwd v (l_x (g_like g)) = Ok (map (fun _ => 0) (l_x (g_like g))) /\
  vget v (l_gidx (g_like g)) = Ok gam /\ vget v (l_jidx (g_like g)) = Ok jit /\ hyper g v "gp_length" (Some len) /\ hyper g v "gp_amp" (Some amp).
Proof.
  intros g v. split; [split|].
  - intros name Hn _. destruct Hn as [<-|[<-|[]]]; [exists "gp_length"%string, 2%nat|exists "gp_amp"%string, 3%nat]; eexists; (split; [reflexivity|]; split; [cbn; tauto|]; split; reflexivity).
  - intros n1 n2 s [<-|[<-|[]]] [<-|[<-|[]]]; cbn; congruence.
  - split; [split; [reflexivity|intros s Hs; exact Hs]|]. split; [repeat split|]. repeat (split; [reflexivity|]). split.
    + exists "gp_length"%string, 2%nat. eexists. split; [cbn; tauto|]. split; [cbn; tauto|]. repeat split; reflexivity.
    + exists "gp_amp"%string, 3%nat. eexists. split; [cbn; tauto|]. split; [cbn; tauto|]. repeat split; reflexivity.
Qed.
(** the same time twice, no uncertainty: the matrix of ones *)
Lemma xg_singular L : ~ factor 2 (data_cov 1 (fun s t => exp (- (s - t) ^ 2 / 1 ^ 2)) 0 (xg_data 0 0)) L.
Proof.
  intros [[HD HZ] HA]. pose proof (HD 0%nat ltac:(lia)) as D0. pose proof (HD 1%nat ltac:(lia)) as D1. pose proof (HZ 0%nat 1%nat ltac:(lia) ltac:(lia)) as Z.
  pose proof (HA 0%nat 0%nat ltac:(lia) ltac:(lia)) as A0. pose proof (HA 1%nat 0%nat ltac:(lia) ltac:(lia)) as A1. pose proof (HA 1%nat 1%nat ltac:(lia) ltac:(lia)) as A2.
  unfold data_cov, xg_data, var_of in *. cbn [nth d_t d_y d_err Nat.eqb] in *. replace (- (0 - 0) ^ 2 / 1 ^ 2) with 0 in * by field. rewrite exp_0 in *. unfold Sum, rsum in *. cbn [seq map fold_right fold_left] in *. rewrite Z in *.
  assert (L 0%nat 0%nat = 1) as E0 by nra. rewrite E0 in *. assert (L 1%nat 0%nat = 1) as E1 by nra. rewrite E1 in *. nra.
Qed.
Lemma factor_thm n a : symmetric n a ->
  ((exists L, factor n a L) <-> pd n a) /\ forall L L', factor n a L -> factor n a L' -> forall i j, (i < n)%nat -> (j < n)%nat -> L i j = L' i j.
Proof. intro S. split; [split; [intros [L F]; exact (factor_pd n a L F)|exact (pd_factor n a S)]|exact (factor_unique n a)]. Qed.
