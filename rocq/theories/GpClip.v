(** C69 with the quasi-periodic kernel whose exponents are cut off at -100 (gp.py:344-347). *)
From Coq Require Import Reals String Arith Bool Lra Lia List.
From Verif Require Import Py PyFloat PyFacts Params Kepler Basis Likelihood Gp GpSpec PsdProofs GpProofs GpHist GpMore LikeSpec LikeDensity CholSpec Cholesky GpLike.
Import ListNotations.
Open Scope R_scope.

Lemma matrix_unique n m a b i j : is_matrix n m a -> is_matrix n m b -> (i < n)%nat -> (j < n)%nat -> a i j = b i j.
Proof.
  intros (_ & _ & A) (_ & _ & B) Hi Hj. destruct (A i j Hi Hj) as (r & R1 & R2), (B i j Hi Hj) as (s & S1 & S2). congruence.
Qed.

Section Clip.
  Variables (la : linalg) (fwd : forward) (f : R -> R) (g : gplike) (v : list row) (k : kstate) (data : list datum) (gam jit : R).
  Hypothesis LA : exact_linalg la.
  Hypothesis WN : well_named g v.
  Hypothesis KR : kernel_ready g k.
  Hypothesis HD : has_data (g_like g) data.
  Hypothesis DN : data <> [].
  Hypothesis HF : fwd v (l_x (g_like g)) = Ok (map f (l_x (g_like g))).
  Hypothesis HG : vget v (l_gidx (g_like g)) = Ok gam.
  Hypothesis HJ : vget v (l_jidx (g_like g)) = Ok jit.

  Theorem quasi_clipped pl amp per el : g_kind g = QuasiPer -> hyper g v "gp_perlength" (Some pl) -> hyper g v "gp_amp" (Some amp) -> hyper g v "gp_per" (Some per) -> hyper g v "gp_explength" (Some el) ->
    0 < pl -> 0 < amp -> 0 < per -> 0 < el ->
    let c := fun s t => exp (Rmax (- (s - t) ^ 2 / el ^ 2) (-100)) * exp (Rmax (- sin (PI * (s - t) / per) ^ 2 / (2 * pl ^ 2)) (-100)) in
    (forall L z, factor (length data) (data_cov amp c jit data) L -> solves (length data) L z (data_resid f gam data) ->
       snd (gp_logprob fwd la g v k) = Ok (Fin (mvn (length data) L z))) /\
    ((forall L, ~ factor (length data) (data_cov amp c jit data) L) -> snd (gp_logprob fwd la g v k) = Ok NInf) /\
    ((forall p, In p data -> 2 * INR (length data) * amp ^ 2 * exp (-100) < var_of jit p) ->
       exists L z, factor (length data) (data_cov amp c jit data) L /\ solves (length data) L z (data_resid f gam data)) /\
    (forall s t, Rabs (c s t - exp (- (s - t) ^ 2 / el ^ 2) * exp (- sin (PI * (s - t) / per) ^ 2 / (2 * pl ^ 2))) <= 2 * exp (-100)).
  Proof.
    intros KD H1 H2 H3 H4 P1 P2 P3 P4 c.
    assert (forall s t, quasi_c pl per el s t = c s t) as EC.
    { intros s t. unfold quasi_c, c. rewrite !clip_np by (auto using t1_np, t2_np). reflexivity. }
    destruct (update_ready g v k WN KR) as (h & U & G). destruct KR as [KD' _]. rewrite KD' in U.
    assert (quasi_h h pl amp per el) as QH by (repeat split; apply G; assumption).
    set (xs := l_x (g_like g)) in *. pose proof (len_x g data HD) as LX. fold xs in LX.
    pose proof (bars_len g data jit HD) as LB. fold xs in LB.
    destruct (quasi_entries h (k_cov k) (cdist xs xs) xs (bars data jit) pl amp per el QH P1 P2 P3 P4 LB) as (m & a & C & IM & _ & PD).
    pose proof C as C'. unfold set_dist in C'. cbn [k_h k_cov] in C'. rewrite (quasi_run _ _ _ _ _ _ _ _ QH P1 P2 P3 P4) in C'. cbv zeta in C'.
    pose proof (f_equal (fun x : kstate * res matrix => match snd x with Ok m => m | Err _ => [] end) C') as Em. cbn [snd] in Em.
    pose proof (cov_matrix (fun d => Fin (quasi_entry pl amp per el d)) (quasi_entry pl amp per el) xs (bars data jit) (fun d _ => eq_refl) LB) as IM2.
    rewrite Em in IM2.
    assert (forall i j, (i < length data)%nat -> (j < length data)%nat -> a i j = data_cov amp c jit data i j) as EA.
    { intros i j Hi Hj. rewrite <- LX in Hi, Hj. rewrite (matrix_unique _ _ _ _ i j IM IM2 Hi Hj). rewrite quasi_abs, EC. rewrite LX in Hi, Hj.
      unfold data_cov. fold dz.
      assert (forall i, (i < length data)%nat -> xat xs i = d_t (nth i data dz)) as EX.
      { intros i0 H0. unfold xat, xs. destruct HD as (-> & _). rewrite (nth_indep _ 0 (d_t dz)) by now rewrite map_length. apply (map_nth d_t). }
      rewrite !EX by assumption. f_equal. destruct (Nat.eqb i j); [|reflexivity]. apply bars_sq; [exact Hi|apply var_nn]. }
    rewrite LX in IM, PD.
    assert (is_matrix (length data) m (data_cov amp c jit data)) as IM3.
    { destruct IM as (I1 & I2 & I3). split; [exact I1|]. split; [exact I2|]. intros i j Hi Hj. rewrite <- EA by assumption. now apply I3. }
    assert (symmetric (length data) (data_cov amp c jit data)) as SY.
    { intros i j Hi Hj. unfold data_cov. fold dz. rewrite (Nat.eqb_sym j i). destruct (Nat.eqb_spec i j) as [->|N]; [reflexivity|]. f_equal. f_equal. unfold c.
      f_equal; f_equal; f_equal.
      - f_equal. f_equal. ring.
      - f_equal. f_equal. replace (PI * (d_t (nth i data dz) - d_t (nth j data dz)) / per) with (- (PI * (d_t (nth j data dz) - d_t (nth i data dz)) / per)) by (field; lra).
        rewrite sin_neg. ring. }
    assert (0 < length data)%nat as N0 by (destruct data; [easy|cbn; lia]).
    destruct (try_value la f data gam LA m _ N0 IM3 SY) as [T1 T2].
    assert (compute_covmatrix (g_kind g) (mkK h (k_cov k) (cdist xs xs)) (inr (bars data jit)) = (mkK h (Some m) (cdist xs xs), Ok m)) as C2.
    { rewrite KD. exact C. }
    rewrite (run_logprob la fwd f g v k data gam jit HD HF HG HJ _ _ _ U C2). cbn [k_cov].
    split; [exact T1|]. split; [exact T2|]. split.
    - intro HV. assert (pd (length data) a) as PA.
      { apply PD. intros e He. apply in_map_iff in He as (p & <- & Hp). replace (sqrt (var_of jit p) ^ 2) with (var_of jit p) by (rewrite <- Rsqr_pow2, Rsqr_sqrt; [reflexivity|apply var_nn]). now apply HV. }
      destruct (pd_factor _ _ SY (pd_ext _ _ _ EA PA)) as [L F]. exists L, (fsolve (length data) L (data_resid f gam data)). split; [exact F|]. apply fsolve_ok, F.
    - intros s t. rewrite <- EC. exact (quasi_err pl per el s t P1 P4).
  Qed.

  (** a negative or missing hyper-parameter *)
  Theorem quasi_refused : g_kind g = QuasiPer ->
    (exists s x, In s ["gp_perlength"; "gp_amp"; "gp_per"; "gp_explength"]%string /\ hyper g v s x /\ match x with Some x => x < 0 | None => True end) ->
    (forall s, In s ["gp_perlength"; "gp_amp"; "gp_per"; "gp_explength"]%string -> exists x, hyper g v s x) ->
    snd (gp_logprob fwd la g v k) = Err ValueError.
  Proof.
    intros KD (s & x & Hs & Hx & Bx) AL.
    destruct (update_ready g v k WN KR) as (h & U & G). destruct KR as [KD' _]. rewrite KD' in *.
    unfold gp_logprob. rewrite U, (gp_res fwd f g v data gam HD HF HG), (gp_bars g v data jit HD HJ). rewrite KD.
    destruct (AL "gp_perlength"%string) as [a Ha]; [cbn; auto|]. destruct (AL "gp_amp"%string) as [b Hb]; [cbn; auto|].
    destruct (AL "gp_per"%string) as [e He]; [cbn; auto|]. destruct (AL "gp_explength"%string) as [q Hq]; [cbn; auto 6|].
    unfold compute_covmatrix, hval, dget_res. cbn [k_h]. rewrite (G _ _ Ha), (G _ _ Hb), (G _ _ He), (G _ _ Hq).
    assert (bad_hyper x = true) as BX by (destruct x as [x|]; cbn; auto; unfold rltb; destruct (Rlt_dec x 0); auto; contradiction).
    assert (bad_hyper b || bad_hyper e || bad_hyper q || bad_hyper a = true) as ->.
    { destruct Hs as [<-|[<-|[<-|[<-|[]]]]].
      all: pose proof (G _ _ Hx) as GY; first [rewrite (G _ _ Ha) in GY|rewrite (G _ _ Hb) in GY|rewrite (G _ _ He) in GY|rewrite (G _ _ Hq) in GY]; injection GY as ->; rewrite BX; rewrite ?orb_true_r; reflexivity. }
    reflexivity.
  Qed.
End Clip.

(** ** an example: two points a thousand days apart, with a decay of one day *)
Definition xq_names : list string := ["gp_perlength"; "gp_amp"; "gp_per"; "gp_explength"]%string.
Definition xq_idx : dict nat := [("gamma", 0%nat); ("jit", 1%nat); ("gp_perlength", 2%nat); ("gp_amp", 3%nat); ("gp_per", 4%nat); ("gp_explength", 5%nat)]%string.
Definition xq_gp (t e : R) : gplike := mkGP (mkLike [0; t] [1; 2] [e; e] "gamma" "jit" 0 1 "" [] [] [] GpMore.ex_ps0 xq_idx) xq_names QuasiPer.
Definition xq_k (t : R) : kstate := mkK (map (fun s => (s, Some 1)) xq_names) None (cdist [0; t] [0; t]).
Definition xq_row (gam jit pl amp per el : R) : list row := map (fun x => mkRow (Some x) true None false) [gam; jit; pl; amp; per; el].
Lemma xq_hyps t e gam jit pl amp per el : let g := xq_gp t e in let v := xq_row gam jit pl amp per el in
  well_named g v /\ kernel_ready g (xq_k t) /\ has_data (g_like g) (xg_data t e) /\ GpMore.zero_fwd v (l_x (g_like g)) = Ok (map (fun _ => 0) (l_x (g_like g))) /\
  vget v (l_gidx (g_like g)) = Ok gam /\ vget v (l_jidx (g_like g)) = Ok jit /\ hyper g v "gp_perlength" (Some pl) /\ hyper g v "gp_amp" (Some amp) /\
  hyper g v "gp_per" (Some per) /\ hyper g v "gp_explength" (Some el).
Proof.
  intros g v. split; [split|].
  - intros name Hn _. destruct Hn as [<-|[<-|[<-|[<-|[]]]]]; [exists "gp_perlength"%string, 2%nat|exists "gp_amp"%string, 3%nat|exists "gp_per"%string, 4%nat|exists "gp_explength"%string, 5%nat];
      eexists; (split; [reflexivity|]; split; [cbn; tauto|]; split; reflexivity).
  - intros n1 n2 s [<-|[<-|[<-|[<-|[]]]]] [<-|[<-|[<-|[<-|[]]]]]; cbn; congruence.
  - split; [split; [reflexivity|intros s Hs; exact Hs]|]. split; [repeat split|]. repeat (split; [reflexivity|]). repeat split.
    + exists "gp_perlength"%string, 2%nat. eexists. split; [cbn; tauto|]. split; [cbn; tauto|]. repeat split; reflexivity.
    + exists "gp_amp"%string, 3%nat. eexists. split; [cbn; tauto|]. split; [cbn; tauto|]. repeat split; reflexivity.
    + exists "gp_per"%string, 4%nat. eexists. split; [cbn; tauto|]. split; [cbn; tauto|]. repeat split; reflexivity.
    + exists "gp_explength"%string, 5%nat. eexists. split; [cbn; tauto|]. split; [cbn; tauto|]. repeat split; reflexivity.
Qed.
Lemma xq_value : exists x, snd (gp_logprob GpMore.zero_fwd ref_la (xq_gp 1000 1) (xq_row 0 0 1 (1 / 3) 10 1) (xq_k 1000)) = Ok (Fin x).
Proof.
  destruct (xq_hyps 1000 1 0 0 1 (1 / 3) 10 1) as (A1 & A2 & A3 & A4 & A5 & A6 & A7 & A8 & A9 & A10).
  destruct (quasi_clipped ref_la GpMore.zero_fwd (fun _ => 0) _ _ _ (xg_data 1000 1) 0 0 ref_exact A1 A2 A3 ltac:(discriminate) A4 A5 A6 1 (1 / 3) 10 1 eq_refl A7 A8 A9 A10) as (Q1 & _ & Q3 & _); try lra.
  destruct Q3 as (L & z & F & S).
  - intros p [<-|[<-|[]]]; unfold var_of; cbn; destruct (exp_le1 (-100) ltac:(lra)); lra.
  - eexists. exact (Q1 L z F S).
Qed.
Lemma xq_refused : snd (gp_logprob GpMore.zero_fwd ref_la (xq_gp 3 1) (xq_row 0 0 1 2 (-10) 1) (xq_k 3)) = Err ValueError.
Proof.
  destruct (xq_hyps 3 1 0 0 1 2 (-10) 1) as (A1 & A2 & A3 & A4 & A5 & A6 & A7 & A8 & A9 & A10).
  eapply (quasi_refused ref_la GpMore.zero_fwd (fun _ => 0) _ _ _ (xg_data 3 1)); eauto.
  - exists "gp_per"%string, (Some (-10)). split; [cbn; tauto|]. split; [exact A9|lra].
  - intros s [<-|[<-|[<-|[<-|[]]]]]; eauto.
Qed.
