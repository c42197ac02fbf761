(** C70 with the quasi-periodic kernel whose exponents are cut off at -100 (gp.py:344-347). *)
From Coq Require Import Reals String Arith Bool Lra Lia List.
From Verif Require Import Py PyFloat PyFacts Params Kepler Basis Likelihood Gp GpSpec PsdProofs GpProofs GpHist GpMore LikeSpec LikeDensity CholSpec Cholesky GpLike PredSpec GpResid GpPred GpClip.
Import ListNotations.
Open Scope R_scope.

Section Clip.
  Variables (la : linalg) (fwd : forward) (f : R -> R) (g : gplike) (v : list row) (k : kstate) (data : list datum) (gam jit : R) (xp : list R).
  Hypothesis LA : exact_predict la.
  Hypothesis WN : well_named g v.
  Hypothesis KR : kernel_ready g k.
  Hypothesis HD : has_data (g_like g) data.
  Hypothesis DN : data <> [].
  Hypothesis XN : xp <> [].
  Hypothesis HF : fwd v (l_x (g_like g)) = Ok (map f (l_x (g_like g))).
  Hypothesis HG : vget v (l_gidx (g_like g)) = Ok gam.
  Hypothesis HJ : vget v (l_jidx (g_like g)) = Ok jit.

  Theorem quasi_predicts_clipped pl amp per el : g_kind g = QuasiPer -> hyper g v "gp_perlength" (Some pl) -> hyper g v "gp_amp" (Some amp) -> hyper g v "gp_per" (Some per) -> hyper g v "gp_explength" (Some el) ->
    0 < pl -> 0 < amp -> 0 < per -> 0 < el ->
    let c := fun s t => exp (Rmax (- (s - t) ^ 2 / el ^ 2) (-100)) * exp (Rmax (- sin (PI * (s - t) / per) ^ 2 / (2 * pl ^ 2)) (-100)) in
    ((exists L, factor (length data) (data_cov amp c jit data) L) -> exists mu sd, snd (gp_predict fwd la g v k xp) = Ok (map Fin mu, sd) /\ length mu = length xp /\ length sd = length xp /\
       forall i x m s, nth_error xp i = Some x -> nth_error mu i = Some m -> nth_error sd i = Some s ->
         exists w, (forall w', pred_err amp c jit data x w <= pred_err amp c jit data x w') /\ m = Sum (length data) (fun j => w j * data_resid f gam data j) /\
           (0 <= pred_err amp c jit data x w -> exists r, s = Fin r /\ 0 <= r /\ r ^ 2 = pred_err amp c jit data x w) /\
           (pred_err amp c jit data x w < 0 -> s = NaN)) /\
    ((forall L, ~ factor (length data) (data_cov amp c jit data) L) -> snd (gp_predict fwd la g v k xp) = Err LinAlgError) /\
    ((forall p, In p data -> 2 * INR (length data) * amp ^ 2 * exp (-100) < var_of jit p) -> exists L, factor (length data) (data_cov amp c jit data) L).
  Proof.
    intros KD H1 H2 H3 H4 P1 P2 P3 P4 c.
    assert (forall s t, quasi_c pl per el s t = c s t) as EC.
    { intros s t. unfold quasi_c, c. rewrite !clip_np by (auto using t1_np, t2_np). reflexivity. }
    destruct (update_ready g v k WN KR) as (h & U & G).
    assert (quasi_h h pl amp per el) as QH by (repeat split; apply G; assumption).
    assert (forall cov d e, compute_covmatrix (g_kind g) (mkK h cov d) e = let m := add_errors e (map (map (fun d => Fin (quasi_entry pl amp per el d))) d) in (mkK h (Some m) d, Ok m)) as RUN.
    { intros cov d e. rewrite KD. now rewrite (quasi_run _ _ _ _ _ _ _ _ QH). }
    assert (forall x y, Fin (quasi_entry pl amp per el (Rabs (x - y))) = Fin (amp ^ 2 * c x y)) as EN.
    { intros x y. rewrite quasi_abs by assumption. now rewrite EC. }
    assert (symmetric (length data) (data_cov amp c jit data)) as SY.
    { apply (cov_sym data jit (fun d => Fin (quasi_entry pl amp per el d)) amp c). exact EN. }
    split; [|split].
    - intros [L F]. destruct (pred_value la fwd f g v k data gam jit xp h _ amp c LA HD DN XN HF HG HJ U RUN EN L F) as (x & y & SX & SZ & P).
      exists (map (fun i => Sum (length data) (fun j => y i j * data_resid f gam data j)) (seq 0 (length xp))),
             (map (fun i => ext_sqrt (Fin (pred_err amp c jit data (xat xp i) (y i)))) (seq 0 (length xp))).
      split; [|rewrite !map_length, seq_length; split; [reflexivity|split; [reflexivity|]]].
      + rewrite P, !map_map. do 2 f_equal.
        * apply map_seq_ext. intros i Hi. f_equal. apply (solution_dual _ _ x (y i) _ _ SY SX (SZ i Hi)).
        * apply map_seq_ext. intros i Hi. rewrite (err_value amp jit c data (xat xp i) (y i) (SZ i Hi)). reflexivity.
      + intros i t m s Hx Hm Hs. assert (i < length xp)%nat as Hi by (apply nth_error_Some; congruence). assert (xat xp i = t) as <- by (unfold xat; now apply nth_error_nth).
        rewrite nth_error_map, (nth_error_nth' (seq 0 (length xp)) 0%nat), seq_nth in Hm by (rewrite ?seq_length; exact Hi). rewrite nth_error_map, (nth_error_nth' (seq 0 (length xp)) 0%nat), seq_nth in Hs by (rewrite ?seq_length; exact Hi).
        cbn [option_map Nat.add] in Hm, Hs. injection Hm as <-. injection Hs as <-. exists (y i). split; [|split; [reflexivity|]].
        * intro w'. rewrite (err_min amp jit c data (xat xp i) SY (y i) (SZ i Hi) w'). pose proof (factor_pd_psd _ _ L F (fun j => w' j - y i j)). lra.
        * unfold ext_sqrt, rltb. destruct (Rlt_dec (pred_err amp c jit data (xat xp i) (y i)) 0) as [B|B]; split; intro Q; try lra; [reflexivity|].
          eexists. split; [reflexivity|]. split; [apply sqrt_pos|]. now rewrite <- Rsqr_pow2, Rsqr_sqrt.
    - intro NF. exact (pred_error la fwd f g v k data gam jit xp h _ amp c LA HD DN XN HF HG HJ U RUN EN NF).
    - intro HV. destruct (quasi_clipped ref_la fwd f g v k data gam jit ref_exact WN KR HD DN HF HG HJ pl amp per el KD H1 H2 H3 H4 P1 P2 P3 P4) as (_ & _ & Q & _).
      destruct (Q HV) as (L & z & F & _). exists L. exact F.
  Qed.
End Clip.

Lemma xq_predicts : exists mu sd, snd (gp_predict GpMore.zero_fwd ref_la (xq_gp 1000 1) (xq_row 0 0 1 (1 / 3) 10 1) (xq_k 1000) [0; 500]) = Ok (map Fin mu, sd) /\ length mu = 2%nat.
Proof.
  destruct (xq_hyps 1000 1 0 0 1 (1 / 3) 10 1) as (A1 & A2 & A3 & A4 & A5 & A6 & A7 & A8 & A9 & A10).
  destruct (quasi_predicts_clipped ref_la GpMore.zero_fwd (fun _ => 0) _ _ _ (xg_data 1000 1) 0 0 [0; 500] ref_predict A1 A2 A3 ltac:(discriminate) ltac:(discriminate) A4 A5 A6 1 (1 / 3) 10 1 eq_refl A7 A8 A9 A10) as (Q1 & _ & Q3); try lra.
  destruct Q1 as (mu & sd & E & L & _); [|exists mu, sd; auto].
  apply Q3. intros p [<-|[<-|[]]]; unfold var_of; cbn; destruct (exp_le1 (-100) ltac:(lra)); lra.
Qed.
