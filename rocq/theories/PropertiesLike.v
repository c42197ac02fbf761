(** Property theorems C17-C21 and C51: likelihoods. *)
From Coq Require Import Reals String List ZArith Lra Lia Permutation.
From Coquelicot Require Import Coquelicot.
From Verif Require Import Py PyFloat Params ParamsProofs ParamsSpec VectorProofs Kepler Basis RVModel Likelihood LikeSpec
  LikeProofs LikeHist GaussInt LikeDensity LikeMore LikeBuild LikeAlign ExLike BasisExtra Posterior PostRefute.
From Coq Require Import List.
Import ListNotations.
Open Scope R_scope.


(** * C17 *)
(** Full claim: for every call.  It fails when flags were changed after the
    list of varied rows was cached (C17_stale_cache_refuted); here the cached
    list is absent or up to date, as it is after any sequence of calls that does
    not edit the vary flags. *)
Theorem C17_set_then_get_partial : forall v cache vals,
  cache_fresh cache v -> length vals = n_free v ->
  exists v' c', set_vary_params cache v vals = (v', c', Ok tt) /\
    get_vary_params c' v' = (c', Ok vals) /\ agree (is_free v) v v'.
Proof. exact set_get. Qed.
Print Assumptions C17_set_then_get_partial.

Example C17_set_then_get_ex :
  let v := [mkRow (Some 1) true None false; mkRow (Some 2) false None false; mkRow None true None true] in
  cache_fresh (Some [0; 2]%nat) v /\ length [Some 7; Some 8] = n_free v /\
  fst (fst (set_vary_params (Some [0; 2]%nat) v [Some 7; Some 8])) =
    [mkRow (Some 7) true None false; mkRow (Some 2) false None false; mkRow (Some 8) true None true].
Proof. split; [right; reflexivity|split; reflexivity]. Qed.

Theorem C17_set_back_partial : forall v cache vals old,
  cache_fresh cache v -> length vals = n_free v ->
  snd (get_vary_params cache v) = Ok old ->
  exists v' c' c'', set_vary_params cache v vals = (v', c', Ok tt) /\
    set_vary_params c' v' old = (v, c'', Ok tt).
Proof. exact set_back. Qed.
Print Assumptions C17_set_back_partial.

Example C17_set_back_ex :
  let v := [mkRow (Some 1) true None false; mkRow (Some 2) false None false; mkRow (Some 3) true None true] in
  cache_fresh None v /\ length [Some 7; Some 8] = n_free v /\ snd (get_vary_params None v) = Ok [Some 1; Some 3].
Proof. split; [left; reflexivity|split; reflexivity]. Qed.

Theorem C17_wrong_length : forall v cache vals,
  cache_fresh cache v -> length vals <> n_free v ->
  exists v' c e, set_vary_params cache v vals = (v', c, Err e) /\
    (e = if Nat.ltb (length vals) (n_free v) then IndexError else AssertionError) /\ agree (is_free v) v v'.
Proof. exact set_wrong_length. Qed.
Print Assumptions C17_wrong_length.

Example C17_wrong_length_ex :
  let v := [mkRow (Some 1) true None false; mkRow (Some 2) false None false] in
  cache_fresh None v /\ length [Some 7; Some 8] <> n_free v /\ snd (set_vary_params None v [Some 7; Some 8]) = Err AssertionError /\
  snd (set_vary_params None v []) = Err IndexError.
Proof. split; [left; reflexivity|]. split; [discriminate|split; reflexivity]. Qed.

(** fast=False: the Parameter objects get the values of the array too. *)
Theorem C17_set_with_dictionary : forall num b names ps h v cache vals idx,
  layout num b names (dkeys (ps_items ps)) -> objects_ok h (ps_items ps) -> idx = init_index_dict num (dkeys (ps_items ps)) ->
  (5 * num + 2 + length (filter is_extra (dkeys (ps_items ps))) <= length v)%nat ->
  cache_fresh cache v -> length vals = n_free v ->
  exists v' c' h', set_vary_params_slow ps idx h cache v vals = (v', c', Ok h') /\
    get_vary_params c' v' = (c', Ok vals) /\ agree (is_free v) v v' /\ length h' = length h /\
    (forall k p, get_param h (ps_items ps) k = Some p ->
       get_param h' (ps_items ps) k = Some (match dget idx k with
                                | Some i => mkParam (match nth_error v' i with
                                                     | Some r => r_val r | None => p_value p end)
                                                    (p_vary p) (p_scale p) (p_lin p)
                                | None => p end)).
Proof. exact set_slow. Qed.
Print Assumptions C17_set_with_dictionary.

Example C17_set_with_dictionary_ex :
  let ps := ex_ps "per tc e w k" ["per"; "tc"; "e"; "w"; "k"]%string in
  let v := repeat (mkRow (Some 1) true None false) 14 in
  layout 2 "per tc e w k" ["per"; "tc"; "e"; "w"; "k"]%string (dkeys (ps_items ps)) /\
  objects_ok (ex_h ["per"; "tc"; "e"; "w"; "k"]%string) (ps_items ps) /\
  (5 * 2 + 2 + length (filter is_extra (dkeys (ps_items ps))) <= length v)%nat /\
  cache_fresh None v /\ length (repeat (Some 2) 14) = n_free v.
Proof.
  cbn zeta. split; [apply ex_layout; cbn; tauto|]. split; [apply ex_layout; cbn; tauto|]. split; [vm_compute; lia|].
  split; [now left|reflexivity].
Qed.

(** A fixed parameter is overwritten. *)
Theorem C17_stale_cache_refuted : exists v0 v1 c x v2 c2,
  fst (get_vary_params None v0) = c /\ map r_val v1 = map r_val v0 /\ n_free v1 = 1%nat /\
  set_vary_params c v1 [Some x] = (v2, c2, Ok tt) /\
  exists r r', nth_error v1 0 = Some r /\ r_vary r = false /\ nth_error v2 0 = Some r' /\ r_val r' <> r_val r.
Proof. exact stale_cache. Qed.
Print Assumptions C17_stale_cache_refuted.

(** * C18 *)
(** Any sequence [cs] of earlier calls (logprob_array, logprob, residuals,
    get_vary_params) leaves logprob_array(v) unchanged, for each likelihood and for
    the composite; the cached list may be present or not. *)
Theorem C18_likelihood_history : forall h ps b names vec ds h1 ps1 vec1 ls use_c fuel tb c0 cs vals,
  layout (ps_num ps) b names (dkeys (ps_items ps)) -> b_num (ps_basis ps) = ps_num ps ->
  vector_init h ps = Ok vec -> build_likes h ps vec ds = Ok (h1, ps1, vec1, ls) ->
  let v0 := v_vector vec1 in
  cache_fresh c0 v0 ->
  let fwd := rv_forward use_c fuel ps1 (v_indices vec1) (v_names vec1) tb in
  let ms := map (rv_member fwd) ls in
  snd (logprob_array (comp_logprob ms) (run (comp_logprob ms) (comp_residuals ms) (v0, c0) cs) vals) =
  snd (logprob_array (comp_logprob ms) (v0, c0) vals) /\
  forall l, In l ls ->
    snd (logprob_array (rv_logprob fwd l) (run (rv_logprob fwd l) (rv_residuals fwd l) (v0, c0) cs) vals) =
    snd (logprob_array (rv_logprob fwd l) (v0, c0) vals).
Proof. exact constructed_history. Qed.
Print Assumptions C18_likelihood_history.

Example C18_likelihood_history_ex : forall x, exists vec h1 ps1 vec1 ls,
  layout (ps_num exl_ps) "per tp e w k" ["per"; "tp"; "e"; "w"; "k"]%string (dkeys (ps_items exl_ps)) /\
  b_num (ps_basis exl_ps) = ps_num exl_ps /\ vector_init (exl_h x) exl_ps = Ok vec /\
  build_likes (exl_h x) exl_ps vec (exl_data x ["temp"%string]) = Ok (h1, ps1, vec1, ls) /\ cache_fresh None (v_vector vec1).
Proof.
  intro x. destruct (exl_built x ["temp"%string]) as (vec & h1 & ps1 & vec1 & ls & A & B); [auto|].
  exists vec, h1, ps1, vec1, ls. split; [exact exl_layout|]. split; [reflexivity|]. split; [exact A|]. split; [exact B|now left].
Qed.

(** * C19 *)
Theorem C19_gaussian : forall fwd l v data f g gam jit,
  has_data l data -> fwd v (l_x l) = Ok (map f (l_x l)) -> l_decorr l = [] ->
  nth_error v (l_gidx l) = Some g -> marginalised g = false -> r_val g = Some gam ->
  vget v (l_jidx l) = Ok jit -> (forall p, In p data -> 0 < var_of jit p) ->
  rv_logprob fwd l v = (v, Ok (Fin (gauss_loglike f gam jit data))).
Proof. exact logprob_density. Qed.
Print Assumptions C19_gaussian.

Example C19_gaussian_ex : exists (fwd : forward) l v data (f : R -> R) g gam jit,
  has_data l data /\ length data = 1%nat /\ fwd v (l_x l) = Ok (map f (l_x l)) /\ l_decorr l = [] /\
  nth_error v (l_gidx l) = Some g /\ marginalised g = false /\ r_val g = Some gam /\
  vget v (l_jidx l) = Ok jit /\ (forall p, In p data -> 0 < var_of jit p).
Proof.
  destruct (exl_single exl_x) as (fwd & la & lb & v & f & ga & gb & _ & _ & _ & _ & A2 & _ & A4 & _ & A6 & _ & _ & _ & _ & _ & _ & A11 & A12 & A13 & A14).
  { unfold exl_x. cbn. lra. }
  exists fwd, lb, v. eexists. exists f, gb. do 2 eexists. split; [exact A2|]. repeat (split; [eassumption || reflexivity|]).
  intros p [<-|[]]; unfold var_of; cbn [d_err]; unfold exl_x; cbn [nth]; lra.
Qed.

(** With decorrelation terms: whatever the residuals are, the result is the sum
    of their log densities. *)
Theorem C19_residuals : forall fwd l v v1 r g jit,
  rv_residuals fwd l v = (v1, Ok r) -> vget v (l_jidx l) = Ok jit ->
  nth_error v1 (l_gidx l) = Some g -> marginalised g = false ->
  length r = length (l_yerr l) -> (forall s, In s (l_yerr l) -> 0 < s ^ 2 + jit ^ 2) ->
  rv_logprob fwd l v =
  (v1, Ok (Fin (rsum (map (fun p => ln (normal_pdf (snd p ^ 2 + jit ^ 2) (fst p))) (combine r (l_yerr l)))))).
Proof. exact logprob_of_residuals. Qed.
Print Assumptions C19_residuals.

Example C19_residuals_ex : exists fwd l v v1 r g jit,
  rv_residuals fwd l v = (v1, Ok r) /\ vget v (l_jidx l) = Ok jit /\ l_decorr l = ["c1_temp_a"%string] /\
  nth_error v1 (l_gidx l) = Some g /\ marginalised g = false /\
  length r = length (l_yerr l) /\ (forall s, In s (l_yerr l) -> 0 < s ^ 2 + jit ^ 2).
Proof.
  exists (fun _ t => Ok (map (fun _ => 0) t)),
    (mkLike [0; 1] [5; 6] [1; 2] "gamma_a" "jit_a" 0 1 "a" ["a"%string; "a"%string] ["c1_temp_a"%string] [("temp"%string, [3; 4])]
       exl_ps [("gamma_a"%string, 0%nat); ("jit_a"%string, 1%nat); ("c1_temp_a"%string, 2%nat)]),
    [mkRow (Some 1) true None false; mkRow (Some 2) true None false; mkRow (Some 3) true None false].
  do 4 eexists. split; [reflexivity|]. split; [reflexivity|]. split; [reflexivity|]. split; [reflexivity|]. split; [reflexivity|].
  split; [reflexivity|]. cbn [l_yerr]. intros s [<-|[<-|[]]]; lra.
Qed.

Theorem C19_order : forall use_c fuel ps idx names tb l l' v data data' vel g jit,
  let fwd := rv_forward use_c fuel ps idx names tb in
  has_data l data -> has_data l' data' -> Permutation data data' ->
  l_gidx l' = l_gidx l -> l_jidx l' = l_jidx l -> l_decorr l = [] -> l_decorr l' = [] ->
  fwd v (l_x l) = Ok vel ->
  nth_error v (l_gidx l) = Some g -> (exists gam, r_val g = Some gam) -> l_jidx l <> l_gidx l ->
  vget v (l_jidx l) = Ok jit -> data <> [] -> (forall p, In p data -> 0 < var_of jit p) ->
  rv_logprob fwd l v = rv_logprob fwd l' v.
Proof. exact rvmodel_perm. Qed.
Print Assumptions C19_order.

Example C19_order_ex : exists vec h1 ps1 vec1 ls l l' data data' vel g jit,
  vector_init (exl_h exl_x) exl_ps = Ok vec /\ build_likes (exl_h exl_x) exl_ps vec (exl_data exl_x []) = Ok (h1, ps1, vec1, ls) /\
  In l ls /\ has_data l data /\ has_data l' data' /\ Permutation data data' /\ data <> data' /\
  rv_forward true 29 ps1 (v_indices vec1) (v_names vec1) 2 (v_vector vec1) (l_x l) = Ok vel /\
  nth_error (v_vector vec1) (l_gidx l) = Some g /\ (exists gam, r_val g = Some gam) /\ l_jidx l <> l_gidx l /\
  vget (v_vector vec1) (l_jidx l) = Ok jit /\ data <> [] /\ (forall p, In p data -> 0 < var_of jit p).
Proof.
  destruct (exl_built exl_x []) as (vec & h1 & ps1 & vec1 & ls & E1 & E2); [now left|].
  destruct (exl_single exl_x) as (fwd & la & lb & v & f & ga & gb & -> & -> & AL & A1 & _ & A3 & _ & A5 & _ & A7 & A8b & A8 & A9 & A10 & A11 & _).
  { unfold exl_x. cbn. lra. }
  unfold exl_fwd, exl_rows, exl_likes, exl_build in *. rewrite E1 in *. cbn [bind] in *. rewrite E2 in *. cbn [bind] in *.
  exists vec, h1, ps1, vec1, ls, la, (mkLike (rev (l_x la)) (rev (l_y la)) (rev (l_yerr la)) (l_gamma la) (l_jit la) (l_gidx la) (l_jidx la) (l_suffix la) (l_telvec la) [] [] exl_ps (l_indices la)).
  do 2 eexists. eexists. exists ga. eexists. split; [first [reflexivity|exact E1]|]. split; [first [reflexivity|exact E2]|]. split; [rewrite <- AL; now left|].
  split; [exact A1|]. split. { destruct A1 as (-> & -> & ->). unfold has_data. cbn. instantiate (1 := [mkDatum (exl_x 21) (exl_x 23) (exl_x 25); mkDatum (exl_x 20) (exl_x 22) (exl_x 24)]%nat). repeat split; reflexivity. }
  split; [apply perm_swap|]. split. { unfold exl_x; cbn. intro Q. injection Q. intros. lra. }
  split; [exact A3|]. split; [exact A7|]. split; [exists (exl_x 6%nat); exact A8b|].
  split; [exact A10|]. split; [exact A11|]. split; [discriminate|].
  intros p [<-|[<-|[]]]; unfold var_of; cbn [d_err]; unfold exl_x; cbn [nth]; lra.
Qed.

Theorem C19_combine : forall fwd l l1 l2 v d1 d2 f g gam jit,
  has_data l (d1 ++ d2) -> has_data l1 d1 -> has_data l2 d2 ->
  l_gidx l1 = l_gidx l -> l_jidx l1 = l_jidx l -> l_gidx l2 = l_gidx l -> l_jidx l2 = l_jidx l ->
  l_decorr l = [] -> l_decorr l1 = [] -> l_decorr l2 = [] ->
  fwd v (l_x l) = Ok (map f (l_x l)) -> fwd v (l_x l1) = Ok (map f (l_x l1)) -> fwd v (l_x l2) = Ok (map f (l_x l2)) ->
  nth_error v (l_gidx l) = Some g -> marginalised g = false -> r_val g = Some gam ->
  vget v (l_jidx l) = Ok jit -> (forall p, In p (d1 ++ d2) -> 0 < var_of jit p) ->
  exists a b, rv_logprob fwd l1 v = (v, Ok (Fin a)) /\ rv_logprob fwd l2 v = (v, Ok (Fin b)) /\
    rv_logprob fwd l v = (v, Ok (Fin (a + b))).
Proof. exact logprob_split. Qed.
Print Assumptions C19_combine.

Example C19_combine_ex : exists l l1 l2 v g,
  has_data l ([mkDatum 1 2 3] ++ [mkDatum 4 5 6]) /\ has_data l1 [mkDatum 1 2 3] /\ has_data l2 [mkDatum 4 5 6] /\
  nth_error v (l_gidx l) = Some g /\ marginalised g = false /\ r_val g = Some 7 /\ vget v (l_jidx l) = Ok 2 /\
  (forall p, In p ([mkDatum 1 2 3] ++ [mkDatum 4 5 6]) -> 0 < var_of 2 p).
Proof.
  pose (mk := fun d => mkLike (map d_t d) (map d_y d) (map d_err d) "gamma" "jit" 0 1 "" [] [] [] exl_ps []).
  exists (mk [mkDatum 1 2 3; mkDatum 4 5 6]), (mk [mkDatum 1 2 3]), (mk [mkDatum 4 5 6]),
    [mkRow (Some 7) true None false; mkRow (Some 2) true None false]. eexists.
  split; [repeat split|]. split; [repeat split|]. split; [repeat split|].
  repeat (split; [reflexivity|]). intros p [<-|[<-|[]]]; unfold var_of; cbn [d_err]; lra.
Qed.

(** * C20 *)
Theorem C20_marginalisation : forall fwd l v data f g jit,
  has_data l data -> fwd v (l_x l) = Ok (map f (l_x l)) -> l_decorr l = [] -> data <> [] ->
  nth_error v (l_gidx l) = Some g -> r_lin g = true -> r_vary g = false -> l_jidx l <> l_gidx l ->
  vget v (l_jidx l) = Ok jit -> (forall p, In p data -> 0 < var_of jit p) ->
  exists v1 z L I, rv_logprob fwd l v = (v1, Ok (Fin L)) /\
    rv_residuals fwd l v = (v1, Ok (map (fun p => d_y p - z - f (d_t p)) data)) /\
    vget v1 (l_gidx l) = Ok z /\
    (forall c, chi2 f z jit data <= chi2 f c jit data) /\
    is_RInt_gen (fun c => gauss_like f c jit data) (Rbar_locally m_infty) (Rbar_locally p_infty) I /\
    0 < I /\ L = ln I.
Proof. exact marginalisation. Qed.
Print Assumptions C20_marginalisation.

Example C20_marginalisation_ex : exists (fwd : forward) l v data (f : R -> R) g jit,
  has_data l data /\ fwd v (l_x l) = Ok (map f (l_x l)) /\ l_decorr l = [] /\ data <> [] /\ length data = 2%nat /\
  nth_error v (l_gidx l) = Some g /\ r_lin g = true /\ r_vary g = false /\ l_jidx l <> l_gidx l /\
  vget v (l_jidx l) = Ok jit /\ (forall p, In p data -> 0 < var_of jit p).
Proof.
  destruct (exl_single exl_x) as (fwd & la & lb & v & f & ga & gb & _ & _ & _ & A1 & _ & A3 & _ & A5 & _ & A7 & A8b & A8 & A9 & A10 & A11 & _).
  { unfold exl_x. cbn. lra. }
  exists fwd, la, v. eexists. exists f, ga. eexists. split; [exact A1|]. split; [exact A3|]. split; [exact A5|]. split; [discriminate|].
  split; [reflexivity|]. repeat (split; [eassumption|]).
  intros p [<-|[<-|[]]]; unfold var_of; cbn [d_err]; unfold exl_x; cbn [nth]; lra.
Qed.

(** * C21 *)
Theorem C21_bic : forall lp n v c v2 L,
  cache_fresh c v -> lp v = (v2, Ok (Fin L)) -> (0 < n)%nat ->
  snd (bic lp n (v, c)) = Ok (Fin (INR (n_free v) * ln (INR n) - 2 * L)).
Proof. exact bic_value. Qed.
Print Assumptions C21_bic.

Example C21_bic_ex : exists (lp : list row -> list row * res ext) v c v2,
  cache_fresh c v /\ lp v = (v2, Ok (Fin (-3))) /\ (0 < 5)%nat /\ n_free v = 2%nat.
Proof.
  exists (fun v => (v, Ok (Fin (-3)))), [mkRow (Some 1) true None false; mkRow (Some 1) false None false; mkRow (Some 1) true None false], None.
  eexists. split; [now left|]. split; [reflexivity|]. split; [lia|reflexivity].
Qed.

Theorem C21_aic : forall lp n v c v2 L,
  cache_fresh c v -> lp v = (v2, Ok (Fin L)) ->
  let k := n_free v in
  snd (aic lp n (v, c)) =
  Ok (if Nat.ltb (k + 1) n
      then Fin (2 * INR k - 2 * L + 2 * INR k * (INR k + 1) / (INR n - INR k - 1))
      else PInf).
Proof. exact aic_value. Qed.
Print Assumptions C21_aic.

Example C21_aic_ex : exists (lp : list row -> list row * res ext) v c v2,
  cache_fresh c v /\ lp v = (v2, Ok (Fin (-3))) /\ n_free v = 2%nat /\ snd (aic lp 3 (v, c)) = Ok PInf.
Proof.
  pose (v := [mkRow (Some 1) true None false; mkRow (Some 1) false None false; mkRow (Some 1) true None false]).
  exists (fun v => (v, Ok (Fin (-3)))), v, None, v.
  split; [now left|]. split; [reflexivity|]. split; [reflexivity|].
  rewrite (aic_value _ 3 v None v (-3)); [reflexivity|now left|reflexivity].
Qed.

(** Posterior.aic raises TypeError whenever the likelihood has an AIC. *)
Theorem C21_posterior_aic_refuted : forall (S : Type) (like_aic : S -> S * res ext) s x, snd (like_aic s) = Ok x ->
  snd (post_aic like_aic s) = Err TypeError.
Proof. exact (@post_aic_raises). Qed.
Print Assumptions C21_posterior_aic_refuted.

Example C21_posterior_aic_refuted_ex : snd ((fun s : nat => (s, Ok (Fin 3))) 0%nat) = Ok (Fin 3).
Proof. reflexivity. Qed.

Theorem C21_posterior_bic : forall lp n v c v2 L, cache_fresh c v -> lp v = (v2, Ok (Fin L)) -> (0 < n)%nat ->
  snd (post_bic (bic lp n) (v, c)) = Ok (Fin (INR (n_free v) * ln (INR n) - 2 * L)).
Proof. exact bic_value. Qed.
Print Assumptions C21_posterior_bic.

(** * C51 *)
(** At any parameter values [v], members built one after the other on one
    parameter set: the composite's logprob is the sum of the members' values when
    each is evaluated on its own. *)
Theorem C51_sum : forall h ps b names vec ds h1 ps1 vec1 ls use_c fuel tb v,
  layout (ps_num ps) b names (dkeys (ps_items ps)) -> b_num (ps_basis ps) = ps_num ps ->
  vector_init h ps = Ok vec -> build_likes h ps vec ds = Ok (h1, ps1, vec1, ls) ->
  let fwd := rv_forward use_c fuel ps1 (v_indices vec1) (v_names vec1) tb in
  forall xs, Forall2 (fun l x => snd (rv_logprob fwd l v) = Ok x) ls xs ->
  snd (comp_logprob (map (rv_member fwd) ls) v) = Ok (ext_sum xs).
Proof. exact built_sum. Qed.
Print Assumptions C51_sum.

Example C51_sum_ex : exists vec h1 ps1 vec1 ls xs,
  vector_init (exl_h exl_x) exl_ps = Ok vec /\ build_likes (exl_h exl_x) exl_ps vec (exl_data exl_x []) = Ok (h1, ps1, vec1, ls) /\
  length ls = 2%nat /\
  Forall2 (fun l y => snd (rv_logprob (rv_forward true 29 ps1 (v_indices vec1) (v_names vec1) 2) l (v_vector vec1)) = Ok y) ls xs.
Proof.
  destruct (exl_members exl_x) as (vec & h1 & ps1 & vec1 & ls & c & rs & es & xs & A & B & _ & D & _ & _ & E).
  { unfold exl_x. cbn. lra. }
  exists vec, h1, ps1, vec1, ls, xs. auto.
Qed.

(** Residuals and error bars are the members' in order, and at every position
    time, uncertainty, label, residual and error bar come from the same point of
    the same data set. *)
Theorem C51_alignment : forall h ps b names vec ds h1 ps1 vec1 ls use_c fuel tb v,
  layout (ps_num ps) b names (dkeys (ps_items ps)) -> b_num (ps_basis ps) = ps_num ps ->
  vector_init h ps = Ok vec -> build_likes h ps vec ds = Ok (h1, ps1, vec1, ls) ->
  let fwd := rv_forward use_c fuel ps1 (v_indices vec1) (v_names vec1) tb in
  forall H likes c rs es,
  map c_like likes = ls -> composite_init H v likes = Ok c ->
  Forall2 (fun l x => snd (rv_residuals fwd l v) = Ok x) ls rs ->
  Forall2 (fun l x => rv_errorbars l v = Ok x) ls es ->
  exists r e, snd (comp_residuals (map (rv_member fwd) ls) v) = Ok r /\
    comp_errorbars (map (rv_member fwd) ls) v = Ok e /\
    length r = length (cp_x c) /\ length e = length (cp_x c) /\
    length (cp_yerr c) = length (cp_x c) /\ length (cp_telvec c) = length (cp_x c) /\
    length (cp_x c) = length (concat (map ds_t ds)) /\
    forall k, (k < length (cp_x c))%nat ->
      exists pre d post l j rl el,
        ds = (pre ++ d :: post)%list /\ k = (length (concat (map ds_t pre)) + j)%nat /\ (j < length (ds_t d))%nat /\
        nth_error ls (length pre) = Some l /\
        snd (rv_residuals fwd l v) = Ok rl /\ nth_error r k = nth_error rl j /\
        rv_errorbars l v = Ok el /\ nth_error e k = nth_error el j /\
        nth_error (cp_x c) k = nth_error (ds_t d) j /\ nth_error (cp_yerr c) k = nth_error (ds_err d) j /\
        nth_error (cp_telvec c) k = Some (strip_us (ds_suffix d)).
Proof. exact built_aligned. Qed.
Print Assumptions C51_alignment.

Example C51_alignment_ex : exists vec h1 ps1 vec1 ls c rs es,
  vector_init (exl_h exl_x) exl_ps = Ok vec /\ build_likes (exl_h exl_x) exl_ps vec (exl_data exl_x []) = Ok (h1, ps1, vec1, ls) /\
  map c_like (map (exl_cm (ps_items ps1)) ls) = ls /\ composite_init h1 (v_vector vec1) (map (exl_cm (ps_items ps1)) ls) = Ok c /\
  let fwd := rv_forward true 29 ps1 (v_indices vec1) (v_names vec1) 2 in
  Forall2 (fun l y => snd (rv_residuals fwd l (v_vector vec1)) = Ok y) ls rs /\
  Forall2 (fun l y => rv_errorbars l (v_vector vec1) = Ok y) ls es.
Proof.
  destruct (exl_members exl_x) as (vec & h1 & ps1 & vec1 & ls & c & rs & es & xs & A & B & C & D & E & F & _).
  { unfold exl_x. cbn. lra. }
  exists vec, h1, ps1, vec1, ls, c, rs, es. split; [exact A|]. split; [exact B|]. split; [rewrite map_map; apply map_id|]. auto.
Qed.

(** Contrapositive: members holding different values, vary flags or scales for a
    shared key are refused.  (The linear flag is not compared.) *)
Theorem C51_disagreement_refused : forall h v likes c,
  composite_init h v likes = Ok c ->
  forall m m' k p q, In m likes -> In m' likes ->
    get_param h (c_items m) k = Some p -> get_param h (c_items m') k = Some q ->
    p_value p = p_value q /\ p_vary p = p_vary q /\ p_scale p = p_scale q.
Proof. exact composite_agreement. Qed.
Print Assumptions C51_disagreement_refused.

Example C51_disagreement_refused_ex : forall a b : R, a <> b -> exists h v m m' p q,
  get_param h (c_items m) "jit" = Some p /\ get_param h (c_items m') "jit" = Some q /\ p_value p = Some a /\ p_value q = Some b /\
  composite_init h v [m; m'] = Err AssertionError.
Proof.
  intros a b H.
  pose (l := mkLike [1] [2] [3] "gamma" "jit" 0 1 "" [] [] [] exl_ps [("gamma"%string, 0%nat)]).
  exists [mkParam (Some a) (VBool true) None false; mkParam (Some b) (VBool true) None false], [mkRow (Some 0) true None false],
    (mkCM l [("jit"%string, 0%nat)] 0), (mkCM l [("jit"%string, 1%nat)] 0). do 2 eexists.
  repeat (split; [reflexivity|]). assert (reqb b a = false) as E by (unfold reqb; destruct (Req_EM_T b a); congruence).
  cbn -[reqb]. unfold merge_params. cbn -[reqb]. unfold param_equals. cbn -[reqb]. now rewrite E.
Qed.

(** The stored arrays, the labels and the members themselves, in order; one
    vector is shared.  (Instance: C51_alignment_ex.) *)
Theorem C51_order : forall h v likes c,
  composite_init h v likes = Ok c ->
  cp_x c = concat (map (fun m => l_x (c_like m)) likes) /\
  cp_yerr c = concat (map (fun m => l_yerr (c_like m)) likes) /\
  cp_telvec c = concat (map (fun m => l_telvec (c_like m)) likes) /\
  cp_suffixes c = map (fun m => l_suffix (c_like m)) likes /\
  cp_likes c = likes /\
  forall m m', In m likes -> In m' likes -> c_vector_id m = c_vector_id m'.
Proof. exact composite_data. Qed.
Print Assumptions C51_order.
