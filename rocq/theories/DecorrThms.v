(** C63: theorems in the form of PropertiesDecorr.v, and the counterexamples. *)
From Coq Require Import Reals String Ascii Arith Bool Lia Lra Psatz List.
From Coquelicot Require Import Coquelicot.
From Verif Require Import Py PyFloat PyFacts PyFloatFacts Params ParamsProofs Kepler Basis RVModel RVModelProofs Likelihood LikeSpec LikeProofs GaussInt LikeDensity DecorrSpec DecorrProofs Gp Setup ExLike.
Import ListNotations.
Open Scope R_scope.

(** the parts of a likelihood with decorrelation terms: suffix, variables, coefficients, columns *)
Definition decorrelates (l : rvlike) (v : list row) (n : nat) (sfx : string) (vars : list string) (coef : string -> R) (col : string -> list R) : Prop :=
  l_decorr l = map (coef_name sfx) vars /\
  forall d, In d vars -> (exists i, dget (l_indices l) (coef_name sfx d) = Some i /\ i <> l_gidx l /\ vget v i = Ok (coef d)) /\
    dget (l_dvecs l) d = Some (col d) /\ length (col d) = n.

Lemma index_fun l v n sfx vars coef col : decorrelates l v n sfx vars coef col ->
  exists ix, forall d, In d vars -> dget (l_indices l) (coef_name sfx d) = Some (ix d) /\ ix d <> l_gidx l /\ vget v (ix d) = Ok (coef d).
Proof.
  intros (_ & H). exists (fun d => match dget (l_indices l) (coef_name sfx d) with Some i => i | None => 0%nat end).
  intros d I. destruct (H d I) as ((i & A & B & C) & _). now rewrite A.
Qed.

Lemma decorr_residuals fwd l v data f g gam sfx vars coef col :
  has_data l data -> fwd v (l_x l) = Ok (map f (l_x l)) -> nth_error v (l_gidx l) = Some g ->
  marginalised g = false -> r_val g = Some gam ->
  decorrelates l v (length data) sfx vars coef col -> apart sfx vars ->
  rv_residuals fwd l v = (v, Ok (map (fun p => d_y p - gam - f (d_t p)) (corrected (map (fun d => (coef d, col d)) vars) data))).
Proof.
  intros HD HF HG HM HR DC HA. destruct (index_fun _ _ _ _ _ _ _ DC) as (ix & X). destruct DC as (HN & H).
  apply (residuals_fixed fwd l v data f g sfx vars coef col ix); auto; intros d I; try apply X; auto. apply H; auto.
Qed.
Lemma decorr_logprob fwd l v data f g gam jit sfx vars coef col :
  has_data l data -> fwd v (l_x l) = Ok (map f (l_x l)) -> nth_error v (l_gidx l) = Some g ->
  marginalised g = false -> r_val g = Some gam -> vget v (l_jidx l) = Ok jit -> (forall p, In p data -> 0 < var_of jit p) ->
  decorrelates l v (length data) sfx vars coef col -> apart sfx vars ->
  rv_logprob fwd l v = (v, Ok (Fin (gauss_loglike f gam jit (corrected (map (fun d => (coef d, col d)) vars) data)))).
Proof.
  intros HD HF HG HM HR HJ HW DC HA. destruct (index_fun _ _ _ _ _ _ _ DC) as (ix & X). destruct DC as (HN & H).
  apply (logprob_fixed fwd l v data f g sfx vars coef col ix); auto; intros d I; try apply X; auto. apply H; auto.
Qed.
Lemma decorr_marginal fwd l v data f g jit sfx vars coef col :
  has_data l data -> fwd v (l_x l) = Ok (map f (l_x l)) -> nth_error v (l_gidx l) = Some g ->
  r_lin g = true -> r_vary g = false -> vget v (l_jidx l) = Ok jit -> data <> [] -> (forall p, In p data -> 0 < var_of jit p) ->
  decorrelates l v (length data) sfx vars coef col -> apart sfx vars ->
  let data' := corrected (map (fun d => (coef d, col d)) vars) data in
  exists v1 z z' L I W, rv_logprob fwd l v = (v1, Ok (Fin L)) /\ vget v1 (l_gidx l) = Ok z /\
    (forall c, chi2 f z jit data <= chi2 f c jit data) /\ (forall c, chi2 f z' jit data' <= chi2 f c jit data') /\
    is_RInt_gen (fun c => gauss_like f c jit data') (Rbar_locally m_infty) (Rbar_locally p_infty) I /\ 0 < I /\ 0 < W /\
    L = ln I - W * (z - z') ^ 2.
Proof.
  intros HD HF HG HL HV HJ HE HW DC HA data'. destruct (index_fun _ _ _ _ _ _ _ DC) as (ix & X). destruct DC as (HN & H).
  assert (HM : marginalised g = true) by (unfold marginalised; now rewrite HL, HV).
  pose proof (logprob_marg fwd l v data f g sfx vars coef col ix HD HF HG HN HA (fun d I => proj1 (X d I)) (fun d I => proj1 (proj2 (X d I)))
    (fun d I => proj2 (proj2 (X d I))) (fun d I => proj2 (H d I)) jit HE HM HJ HW) as E.
  set (z := zmean f jit data) in *. pose proof (wsum_pos jit data HE HW) as HS.
  pose proof (corrected_var (map (fun d => (coef d, col d)) vars) data jit HW) as HW'. fold data' in HW'.
  assert (data' <> []) as HE'. { intro Z. apply HE. apply length_zero_iff_nil. pose proof (corrected_len (map (fun d => (coef d, col d)) vars) data) as Q. fold data' in Q. rewrite Z in Q. now symmetry. }
  destruct (marginal_gap f jit data data' z HE HW (corrected_len _ _) HW' (wsum_corrected _ _ _)) as (I & A & B & C).
  exists (setval v (l_gidx l) (Some z)), z, (zmean f jit data'). eexists. exists I, (wsum jit data / 2).
  split; [exact E|]. split. { unfold vget. rewrite (nth_setval_same _ _ _ _ HG). reflexivity. }
  split; [intro c; now apply chi2_minimal|]. split; [intro c; now apply chi2_minimal|]. repeat split; auto; lra.
Qed.

(** ** the correction has average zero, and constants added to a column do not matter *)
Lemma rsum_minus {A} (a b : A -> R) l : rsum (map (fun x => a x - b x) l) = rsum (map a l) - rsum (map b l).
Proof. induction l as [|x l IH]; [cbn; ring|]. cbn [map]. rewrite !rsum_cons, IH. ring. Qed.
Lemma rsum_const {A} c (l : list A) : rsum (map (fun _ => c) l) = c * INR (length l).
Proof. induction l as [|x l IH]; [cbn; ring|]. cbn [map length]. rewrite rsum_cons, IH, S_INR. ring. Qed.
Lemma rsum_nth (x : list R) : rsum (map (fun i => nth i x 0) (seq 0 (length x))) = rsum x.
Proof.
  induction x as [|a x IH]; auto. cbn [length seq map nth]. rewrite !rsum_cons, <- seq_shift, map_map. f_equal. exact IH.
Qed.
Lemma centred x : rsum (map (fun i => nth i x 0 - average x) (seq 0 (length x))) = 0.
Proof.
  rewrite rsum_minus, rsum_nth, rsum_const, seq_length. unfold average. destruct x as [|a x]; [cbn; ring|].
  assert (INR (length (a :: x)) <> 0) by (apply not_0_INR; discriminate). field. auto.
Qed.
Lemma corr_sum cols n : (forall c x, In (c, x) cols -> length x = n) -> rsum (map (corr_at cols) (seq 0 n)) = 0.
Proof.
  induction cols as [|[c x] cols IH]; intro H.
  - rewrite (map_ext _ (fun _ => 0)) by reflexivity. rewrite rsum_const. ring.
  - rewrite (map_ext _ (fun i => c * (nth i x 0 - average x) + corr_at cols i)) by (intro; unfold corr_at; cbn [map fst snd]; now rewrite rsum_cons).
    rewrite rsum_map_plus, IH by (intros; eapply H; right; eauto). rewrite (rsum_map_mult (fun i => nth i x 0 - average x)).
    rewrite <- (H c x) by now left. rewrite centred. ring.
Qed.
Lemma corrected_sum cols data : (forall c x, In (c, x) cols -> length x = length data) ->
  rsum (map d_y (corrected cols data)) = rsum (map d_y data).
Proof.
  intro H. pose proof (corr_sum cols (length data) H) as C. unfold corrected. rewrite map_map. cbn [d_y].
  assert (forall k, rsum (map (fun x => d_y (fst x) - corr_at cols (snd x)) (combine data (seq k (length data)))) =
    rsum (map d_y data) - rsum (map (corr_at cols) (seq k (length data)))) as E.
  { clear. induction data as [|p data IH]; intro k; [cbn; ring|]. cbn [length seq combine map fst snd]. rewrite !rsum_cons, IH. ring. }
  rewrite E, C. ring.
Qed.
Lemma average_shift x c : x <> [] -> average (map (fun a => a + c) x) = average x + c.
Proof.
  intro N. unfold average. rewrite rsum_map_plus, map_id, rsum_const, map_length.
  assert (INR (length x) <> 0) by (apply not_0_INR; destruct x; [congruence|discriminate]). field. auto.
Qed.
Lemma corrected_shift (vars : list string) coef col (sh : string -> R) data : (forall d, In d vars -> length (col d) = length data) ->
  corrected (map (fun d => (coef d, map (fun a => a + sh d) (col d))) vars) data = corrected (map (fun d => (coef d, col d)) vars) data.
Proof.
  intro H. unfold corrected. apply map_ext_in. intros [p i] I. cbn [fst snd]. do 2 f_equal.
  apply in_combine_r in I. apply in_seq in I. unfold corr_at. rewrite !map_map. cbn [fst snd]. apply rsum_map_ext. intros d Id.
  specialize (H d Id). assert (col d <> []) by (intros E; rewrite E in H; cbn in *; lia).
  rewrite average_shift by auto. rewrite (nth_indep _ 0 (0 + sh d)) by (rewrite map_length; lia). rewrite (map_nth (fun a => a + sh d)). ring.
Qed.
Lemma decorr_shift fwd l l' v data f g gam sfx vars coef col sh :
  has_data l data -> has_data l' data -> fwd v (l_x l) = Ok (map f (l_x l)) -> nth_error v (l_gidx l) = Some g -> l_gidx l' = l_gidx l ->
  marginalised g = false -> r_val g = Some gam -> apart sfx vars ->
  decorrelates l v (length data) sfx vars coef col ->
  decorrelates l' v (length data) sfx vars coef (fun d => map (fun a => a + sh d) (col d)) ->
  rv_residuals fwd l' v = rv_residuals fwd l v.
Proof.
  intros HD HD' HF HG EG HM HR HA D D'.
  rewrite (decorr_residuals fwd l v data f g gam sfx vars coef col) by auto.
  assert (HF' : fwd v (l_x l') = Ok (map f (l_x l'))) by (rewrite (proj1 HD'), <- (proj1 HD); exact HF).
  rewrite (decorr_residuals fwd l' v data f g gam sfx vars coef (fun d => map (fun a => a + sh d) (col d)) HD' HF'); auto; [|now rewrite EG].
  do 2 f_equal. f_equal. apply corrected_shift. intros d I. apply (proj2 D d I).
Qed.

(** ** counterexamples *)
Definition xd_rows (cs : list R) : list row :=
  mkRow (Some 1) true None false :: mkRow (Some 0) true None false :: map (fun c => mkRow (Some c) true None false) cs.
Definition xd_fwd : forward := fun _ t => Ok (map (fun _ => 0) t).
Definition xd_data : list datum := [mkDatum 0 5 1; mkDatum 1 6 2].
Definition xd_like (vars : list string) (cols : list (list R)) : rvlike :=
  mkLike [0; 1] [5; 6] [1; 2] "gamma_k" "jit_k" 0 1 "k" ["k"; "k"]%string (map (coef_name "_k") vars) (combine vars cols) exl_ps
    (("gamma_k", 0) :: ("jit_k", 1) :: combine (map (coef_name "_k") vars) (seq 2 (length vars)))%string%nat.

Definition xd_vars : list string := ["temp"; "air"]%string.
Definition xd_cols (d : string) : list R := if String.eqb d "temp" then [3; 4] else [0; 2].
Definition xd_coef (d : string) : R := if String.eqb d "temp" then 7 else 8.
Lemma not_occurs a b : substr_in a b = false -> ~ occurs a b.
Proof. intros H O. apply substr_occurs in O. congruence. Qed.
Lemma xd_apart : apart "_k" xd_vars.
Proof.
  split; [|split].
  - repeat constructor; cbn; intuition discriminate.
  - right. now exists "k"%string.
  - intros d [<-|[<-|[]]]; (split; [apply not_occurs; reflexivity|]); intros d' [<-|[<-|[]]] N; try congruence; apply not_occurs; reflexivity.
Qed.
Lemma xd_decorrelates : decorrelates (xd_like xd_vars [[3; 4]; [0; 2]]) (xd_rows [7; 8]) 2 "_k" xd_vars xd_coef xd_cols.
Proof.
  split; [reflexivity|]. intros d [<-|[<-|[]]]; (split; [|split; reflexivity]).
  - exists 2%nat. split; [reflexivity|split; [discriminate|reflexivity]].
  - exists 3%nat. split; [reflexivity|split; [discriminate|reflexivity]].
Qed.

(** "air" occurs in the name of the coefficient of "airmass" *)
Lemma xd_mixed : exists r, rv_residuals xd_fwd (xd_like ["air"; "airmass"]%string [[0; 2]; [0; 0]]) (xd_rows [1; 1]) = (xd_rows [1; 1], Ok r) /\
  r = [4; 3] /\
  map (fun p => d_y p - 1 - 0) (corrected [(1, [0; 2]); (1, [0; 0])] xd_data) = [5; 4].
Proof.
  eexists. split; [reflexivity|]. split.
  - unfold xd_like, mean, rsum, poly1d. cbn [l_x l_y length fold_right INR fold_left poly1d app map2 map]. repeat (apply f_equal2; [field|]); reflexivity.
  - unfold corrected, corr_at, average, rsum, xd_data. cbn [length seq combine map fst snd nth fold_right INR d_y d_t d_err].
    repeat (apply f_equal2; [field|]); reflexivity.
Qed.
(** underscore in a variable *)
Lemma xd_underscore cs c1 c2 : rv_residuals xd_fwd (xd_like ["bis_span"]%string [[c1; c2]]) (xd_rows (1 :: cs)) = (xd_rows (1 :: cs), Err (KeyError "bis")).
Proof. reflexivity. Qed.
(** the marginalised offset does not see the correction *)
Definition xd_mrows : list row := [mkRow (Some 1) false None true; mkRow (Some 0) true None false; mkRow (Some 4) true None false].
Lemma xd_marg : exists data' v1 L I, data' = corrected [(4, [0; 2])] xd_data /\
  rv_logprob xd_fwd (xd_like ["temp"]%string [[0; 2]]) xd_mrows = (v1, Ok (Fin L)) /\
  is_RInt_gen (fun c => gauss_like (fun _ => 0) c 0 data') (Rbar_locally m_infty) (Rbar_locally p_infty) I /\ 0 < I /\ L < ln I.
Proof.
  destruct (decorr_marginal xd_fwd (xd_like ["temp"]%string [[0; 2]]) xd_mrows xd_data (fun _ => 0) (mkRow (Some 1) false None true) 0 "_k" ["temp"]%string (fun _ => 4) (fun _ => [0; 2]))
    as (v1 & z & z' & L & I & W & A & B & C & D & E & F & G & H); try reflexivity.
  - repeat split.
  - discriminate.
  - intros p [<-|[<-|[]]]; unfold var_of; cbn [d_err]; lra.
  - split; [reflexivity|]. intros d [<-|[]]. split; [|split; reflexivity]. exists 2%nat. split; [reflexivity|split; [discriminate|reflexivity]].
  - split; [repeat constructor; auto|]. split; [right; now exists "k"%string|]. intros d [<-|[]]. split; [apply not_occurs; reflexivity|].
    intros d' [<-|[]] N. congruence.
  - eexists. exists v1, L, I. split; [reflexivity|]. split; [exact A|]. split; [exact E|]. split; [exact F|].
    assert (z <> z'); [|assert (0 < (z - z') ^ 2) by (assert (z - z' <> 0) by lra; nra); nra].
    intro Z. subst z'. pose proof (C (26/5)) as C1. pose proof (D (38/5)) as D1.
    unfold chi2, rsum, xd_data in C1. cbn [map fold_right d_y d_t var_of d_err] in C1. unfold var_of in C1. cbn [d_err] in C1.
    unfold chi2, rsum, xd_data, corrected, corr_at, average, rsum in D1.
    cbn [length seq combine map fst snd nth fold_right INR d_y d_t d_err] in D1. unfold var_of in D1. cbn [d_err] in D1.
    replace (1 ^ 2 + 0 ^ 2) with 1 in * by ring. replace (2 ^ 2 + 0 ^ 2) with 4 in * by ring. replace ((0 + (2 + 0)) / (1 + 1)) with 1 in * by field.
    assert (5 / 4 * (z - 26 / 5) ^ 2 <= 0) by (clear - C1; lra). assert (5 / 4 * (z - 38 / 5) ^ 2 <= 0) by (clear - D1; lra).
    assert (z - 26 / 5 = 0) by nra. nra.
Qed.

(** likelihoods with a Gaussian process have no decorrelation terms *)
Lemma gp_no_decorr argsort ty h ps vec rows inst vars vecs h1 ps1 vec1 l : ty <> RVLike ->
  make_like argsort ty h ps vec rows inst vars vecs = Ok (h1, ps1, vec1, l) -> l_decorr l = [].
Proof.
  intros N E.
  assert (forall h0 ps0 vec0 l0, rvlike_init h ps vec (map o_time rows) (map o_vel rows) (map o_err rows) ("_" ++ inst) [] [] = Ok (h0, ps0, vec0, l0) -> l_decorr l0 = []) as Z.
  { unfold rvlike_init. intros h0 ps0 vec0 l0 H. destruct (likelihood_init _ _ _ _ _) as [[[h2 d2] v2]|]; [|discriminate]. cbn [bind] in H.
    destruct (dget_res _ _); [|discriminate]. cbn [bind] in H. destruct (dget_res _ ("jit" ++ _)%string); [|discriminate]. cbn [bind] in H.
    injection H as <- <- <- <-. reflexivity. }
  destruct ty as [|hn kn|hn]; [congruence| |]; unfold make_like in E;
    (destruct (rvlike_init _ _ _ _ _ _ _ _ _) as [[[[h0 ps0] vec0] l0]|] eqn:R; [|discriminate]); cbn [bind] in E; specialize (Z _ _ _ _ eq_refl).
  all: destruct (gp_finish _ _ _ _ _) as [l2|] eqn:G; [|discriminate]; cbn [bind] in E; injection E as <- <- <- <-.
  - cbn [gp_finish] in G. destruct (kernel_of _); [|discriminate]. unfold Gp.gp_init in G.
    destruct (map_res _ _); [|discriminate]. cbn [bind] in G. destruct (Gp.kernel_init _ _); [|discriminate]. cbn [bind fst Gp.g_like] in G.
    injection G as <-. exact Z.
  - cbn [gp_finish] in G. repeat (match type of G with context [bind ?x _] => destruct x; [|discriminate G]; cbn [bind] in G end).
    injection G as <-. exact Z.
Qed.
Definition xd_h (x : nat -> R) : heap := map (fun i => mkParam (Some (x i)) (VBool true) None false) (seq 0 12).
Definition xd_ps : params :=
  mkParams (combine (exl_keys ++ ["gp_length"; "gp_amp"]%string) (seq 0 12)) (basis_init "per tp e w k" 1) 1 (split "per tp e w k") None.
Lemma xd_gp x : exists vec h1 ps1 vec1 l, vector_init (xd_h x) xd_ps = Ok vec /\
  make_like (fun l => seq 0 (length l)) (GPLike "SqExp" ["gp_length"; "gp_amp"]%string) (xd_h x) xd_ps vec [mkObs (x 20) (x 21) (x 22) "a" [("temp"%string, x 23)]]%nat "a" ["temp"%string] [("temp"%string, [x 23%nat])] = Ok (h1, ps1, vec1, l).
Proof. do 5 eexists; split; vm_compute; reflexivity. Qed.
