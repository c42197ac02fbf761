(** C63: decorrelation terms in RVLikelihood.residuals and logprob. *)
From Coq Require Import Reals String Ascii Arith Bool Lia Lra Psatz List.
From Coquelicot Require Import Coquelicot.
From Verif Require Import Py PyFloat PyFacts PyFloatFacts Params ParamsProofs Kepler Basis RVModel RVModelProofs Likelihood LikeSpec LikeProofs GaussInt LikeDensity DecorrSpec.
Import ListNotations.
Open Scope R_scope.

(** ** strings *)
Lemma prefix_occurs a : forall b, String.prefix a b = true <-> exists q, b = (a ++ q)%string.
Proof.
  induction a as [|x a IH]; intro b.
  - split; [exists b; reflexivity|]. destruct b; reflexivity.
  - destruct b as [|y b]; [split; [discriminate|intros (q & E); discriminate]|]. cbn [String.prefix].
    destruct (ascii_dec x y) as [->|N].
    + rewrite IH. split; intros (q & E); exists q; [now rewrite E|cbn in E; now injection E as ->].
    + split; [discriminate|]. intros (q & E). cbn in E. injection E as E _. congruence.
Qed.
Lemma substr_occurs a : forall b, substr_in a b = true <-> occurs a b.
Proof.
  unfold substr_in. induction b as [|y b IH].
  - destruct a as [|x a]; [split; [exists ""%string, ""%string; reflexivity|reflexivity]|].
    split; [discriminate|]. intros (p & q & E). destruct p; discriminate.
  - cbn [String.index]. destruct (String.prefix a (String y b)) eqn:P.
    + split; auto. intros _. apply prefix_occurs in P as (q & E). now exists ""%string, q.
    + destruct (String.index 0 a b) eqn:I.
      * split; auto. intros _. destruct IH as [IH _]. destruct (IH eq_refl) as (p & q & E). exists (String y p), q. cbn. now rewrite E.
      * split; [discriminate|]. intros (p & q & E). destruct p as [|z p].
        -- exfalso. assert (String.prefix a (String y b) = true); [|congruence]. apply prefix_occurs. now exists q.
        -- destruct IH as [_ IH]. cbn in E. injection E as -> E. discriminate IH. now exists p, q.
Qed.
Lemma app_str_assoc (a b c : string) : ((a ++ b) ++ c)%string = (a ++ b ++ c)%string.
Proof. induction a as [|x a IH]; [reflexivity|]. cbn. now rewrite IH. Qed.
Lemma app_nil_str (a : string) : (a ++ "")%string = a.
Proof. induction a as [|x a IH]; [reflexivity|]. cbn. now rewrite IH. Qed.
Lemma split_first d : forall rest cur, ~ occurs "_" d -> (rest = "" \/ exists s, rest = "_" ++ s)%string ->
  nth_error (split_us (d ++ rest) cur) 0 = Some (cur ++ d)%string.
Proof.
  induction d as [|x d IH]; intros rest cur N R.
  - rewrite app_nil_str. destruct R as [->|(s & ->)]; reflexivity.
  - change ((String x d ++ rest)%string) with (String x (d ++ rest)). cbn [split_us].
    destruct (Ascii.eqb_spec x "_").
    + exfalso. apply N. subst. now exists ""%string, d.
    + rewrite IH; auto.
      * now rewrite app_str_assoc.
      * intros (p & q & E). apply N. exists (String x p), q. cbn. now rewrite E.
Qed.
Lemma var_of_name sfx d : ~ occurs "_" d -> (sfx = "" \/ exists s, sfx = "_" ++ s)%string ->
  nth_error (split_us (coef_name sfx d) "") 1 = Some d.
Proof.
  intros N R. unfold coef_name. change (("c1_" ++ d ++ sfx)%string) with (String "c" (String "1" (String "_" (d ++ sfx)%string))).
  change (split_us (String "c" (String "1" (String "_" (d ++ sfx)%string))) "") with ("c1"%string :: split_us (d ++ sfx) "").
  cbn [nth_error]. change (nth_error (split_us (d ++ sfx) "") 0 = Some ("" ++ d)%string). now apply split_first.
Qed.
Lemma own_occurs sfx d : occurs d (coef_name sfx d).
Proof. now exists "c1_"%string, sfx. Qed.
Lemma only_own sfx vars d : apart sfx vars -> In d vars -> filter (substr_in d) (map (coef_name sfx) vars) = [coef_name sfx d].
Proof.
  intros (ND & _ & A) I. destruct (A d I) as [_ O]. clear A. revert I O. induction ND as [|e vars NI ND IH]; intros I O; [destruct I|].
  cbn [map filter]. destruct (string_dec e d) as [->|N].
  - rewrite (proj2 (substr_occurs _ _) (own_occurs sfx d)). f_equal.
    assert (forall x, In x vars -> substr_in d (coef_name sfx x) = false) as F.
    { intros x Ix. destruct (substr_in d (coef_name sfx x)) eqn:E; auto. apply substr_occurs in E. exfalso.
      apply (O x); auto; [now right|]. intros ->. auto. }
    clear - F. induction vars as [|x vars IH]; auto. cbn [map filter]. rewrite F by (now left). apply IH. intros; apply F; now right.
  - destruct I as [->|I]; [congruence|]. destruct (substr_in d (coef_name sfx e)) eqn:E.
    + apply substr_occurs in E. exfalso. apply (O e); auto. now left.
    + apply IH; auto. intros; apply O; auto. now right.
Qed.

(** ** one term *)
Section Terms.
  Variables (l : rvlike) (v : list row) (sfx : string) (vars : list string) (coef : string -> R) (col : string -> list R) (ix : string -> nat) (n : nat).
  Hypothesis HD : l_decorr l = map (coef_name sfx) vars.
  Hypothesis HA : apart sfx vars.
  Hypothesis HI : forall d, In d vars -> dget (l_indices l) (coef_name sfx d) = Some (ix d).
  Hypothesis HV : forall d, In d vars -> vget v (ix d) = Ok (coef d).
  Hypothesis HC : forall d, In d vars -> dget (l_dvecs l) d = Some (col d).
  Hypothesis HL : forall d, In d vars -> length (col d) = n.

  Lemma term_step d r : In d vars -> length r = n ->
    decorr_step l v r (coef_name sfx d) = Ok (map2 (fun r x => r - coef d * (x - average (col d))) r (col d)).
  Proof.
    intros I Hr. unfold decorr_step. destruct HA as (ND & HS & A). rewrite var_of_name; auto; [|now apply A].
    rewrite HD, only_own by (auto; split; auto). cbn [map_res]. unfold dget_res at 1. rewrite HI by auto. cbn [bind].
    rewrite HV by auto. cbn [bind]. unfold dget_res. rewrite HC by auto. cbn [bind].
    rewrite HL, Hr, Nat.eqb_refl by auto. f_equal. apply map2_ext_in. intros a b _ _.
    change (mean (col d)) with (average (col d)). cbn [poly1d fold_left app]. ring.
  Qed.

  Definition terms (ds : list string) : list (R * list R) := map (fun d => (coef d, col d)) ds.

  Lemma nth_pts (f : datum -> R) (cols : list (R * list R)) data i :
    nth_error (map (fun pi => f (fst pi) - corr_at cols (snd pi)) (combine data (seq 0 (length data)))) i =
    option_map (fun p => f p - corr_at cols i) (nth_error data i).
  Proof.
    assert (forall k j, nth_error (map (fun pi => f (fst pi) - corr_at cols (snd pi)) (combine data (seq k (length data)))) j =
      option_map (fun p => f p - corr_at cols (k + j)) (nth_error data j)) as H; [|apply (H 0%nat)].
    induction data as [|p data IH]; intros k j; [now destruct j|]. cbn [length seq combine map]. destruct j as [|j]; cbn [nth_error option_map].
    - cbn [fst snd]. now rewrite Nat.add_0_r.
    - rewrite IH. destruct (nth_error data j); auto. cbn [option_map]. now rewrite Nat.add_succ_comm.
  Qed.
  Lemma ext_nth {A} (a b : list A) : (forall i, nth_error a i = nth_error b i) -> a = b.
  Proof.
    revert b. induction a as [|x a IH]; intros [|y b] H; auto; try (specialize (H 0%nat); discriminate).
    f_equal; [specialize (H 0%nat); cbn in H; congruence|]. apply IH. intro i. exact (H (S i)).
  Qed.
  Lemma corr_snoc a c x i : corr_at (a ++ [(c, x)]) i = corr_at a i + c * (nth i x 0 - average x).
  Proof. unfold corr_at. rewrite map_app, rsum_app. cbn. ring. Qed.

  Lemma terms_loop (f : datum -> R) data ds : length data = n -> incl ds vars -> forall done,
    for_each (map (coef_name sfx) ds) (fun r p => decorr_step l v r p)
      (map (fun pi => f (fst pi) - corr_at (terms done) (snd pi)) (combine data (seq 0 (length data)))) =
    Ok (map (fun pi => f (fst pi) - corr_at (terms (done ++ ds)) (snd pi)) (combine data (seq 0 (length data)))).
  Proof.
    intros Hn. induction ds as [|d ds IH]; intros HS done; [rewrite app_nil_r; reflexivity|].
    cbn [map for_each]. rewrite term_step; [|apply HS; now left|rewrite map_length, combine_length, seq_length; lia].
    cbn [bind]. replace (done ++ d :: ds)%list with ((done ++ [d]) ++ ds)%list by now rewrite <- app_assoc.
    rewrite <- IH by (intros x Hx; apply HS; now right). f_equal. apply ext_nth. intro i. rewrite nth_pts.
    pose proof (HL d (HS d (or_introl eq_refl))) as Hl.
    destruct (nth_error data i) as [p|] eqn:E; cbn [option_map].
    - assert (i < length (col d))%nat as Hi by (rewrite Hl, <- Hn; apply nth_error_Some; congruence).
      destruct (nth_error (col d) i) as [x|] eqn:Ex; [|apply nth_error_None in Ex; lia].
      erewrite nth_map2; [|rewrite nth_pts, E; reflexivity|exact Ex]. f_equal. unfold terms at 2. rewrite map_app. cbn [map].
      rewrite corr_snoc. rewrite (nth_error_nth _ _ 0 Ex). fold (terms done). ring.
    - apply nth_error_None. rewrite length_map2; [|rewrite map_length, combine_length, seq_length; lia].
      apply nth_error_None in E. lia.
  Qed.
End Terms.

(** ** residuals *)
Lemma corrected_map (h : datum -> R) cols data : (forall t y e, h (mkDatum t y e) = y + h (mkDatum t 0 e)) ->
  map h (corrected cols data) = map (fun pi => h (fst pi) - corr_at cols (snd pi)) (combine data (seq 0 (length data))).
Proof.
  intro H. unfold corrected. rewrite map_map. apply map_ext. intros [[t y e] i]. cbn [fst snd d_t d_y d_err].
  rewrite (H t (y - _)), (H t y). ring.
Qed.
Lemma corr_nil i : corr_at [] i = 0.
Proof. reflexivity. Qed.
Lemma corrected_err cols data : map d_err (corrected cols data) = map d_err data.
Proof.
  unfold corrected. rewrite map_map. cbn [d_err]. generalize 0%nat. induction data as [|p data IH]; intro k; auto.
  cbn [length seq combine map fst]. f_equal. apply IH.
Qed.
Lemma corrected_len cols data : length (corrected cols data) = length data.
Proof. unfold corrected. rewrite map_length, combine_length, seq_length. lia. Qed.
Lemma corrected_var cols data jit : (forall p, In p data -> 0 < var_of jit p) -> forall p, In p (corrected cols data) -> 0 < var_of jit p.
Proof.
  intros H p I. unfold corrected in I. apply in_map_iff in I as ([q i] & <- & I). apply in_combine_l in I. exact (H q I).
Qed.
Lemma wsum_corrected cols data jit : wsum jit (corrected cols data) = wsum jit data.
Proof.
  unfold wsum, var_of. rewrite <- (map_map d_err (fun e => / (e ^ 2 + jit ^ 2))), corrected_err, map_map. reflexivity.
Qed.

Section Res.
  Variables (fwd : forward) (l : rvlike) (v : list row) (data : list datum) (f : R -> R) (g : row)
    (sfx : string) (vars : list string) (coef : string -> R) (col : string -> list R) (ix : string -> nat).
  Hypothesis HD : has_data l data.
  Hypothesis HF : fwd v (l_x l) = Ok (map f (l_x l)).
  Hypothesis HG : nth_error v (l_gidx l) = Some g.
  Hypothesis HN : l_decorr l = map (coef_name sfx) vars.
  Hypothesis HA : apart sfx vars.
  Hypothesis HI : forall d, In d vars -> dget (l_indices l) (coef_name sfx d) = Some (ix d).
  Hypothesis HX : forall d, In d vars -> ix d <> l_gidx l.
  Hypothesis HV : forall d, In d vars -> vget v (ix d) = Ok (coef d).
  Hypothesis HC : forall d, In d vars -> dget (l_dvecs l) d = Some (col d) /\ length (col d) = length data.
  Let cols := map (fun d => (coef d, col d)) vars.
  Let data' := corrected cols data.

  Lemma loop_any v1 gam : (forall d, In d vars -> vget v1 (ix d) = Ok (coef d)) ->
    for_each (l_decorr l) (fun r p => decorr_step l v1 r p) (map2 Rminus (map (fun y => y - gam) (l_y l)) (map f (l_x l))) =
    Ok (map (fun p => d_y p - gam - f (d_t p)) data').
  Proof.
    intro H. destruct HD as (DX & DY & DE). rewrite DX, DY, HN.
    rewrite map_map, (map_map d_t f), map2_map_l, map2_map_r, map2_diag.
    unfold data'. rewrite corrected_map by (intros; cbn; ring).
    pose proof (terms_loop l v1 sfx vars coef col ix (length data) HN HA HI H (fun d I => proj1 (HC d I)) (fun d I => proj2 (HC d I))
      (fun p => d_y p - gam - f (d_t p)) data vars eq_refl (incl_refl _) []) as L. cbn [app] in L. unfold terms in L at 2.
    fold cols in L. rewrite <- L. f_equal. unfold terms. cbn [map]. apply ext_nth. intro i.
    etransitivity; [|symmetry; apply (nth_pts (fun p => d_y p - gam - f (d_t p)) [] data i)]. rewrite nth_error_map.
    destruct (nth_error data i); auto. cbn [option_map]. rewrite corr_nil. f_equal. ring.
  Qed.

  Lemma residuals_fixed gam : marginalised g = false -> r_val g = Some gam ->
    rv_residuals fwd l v = (v, Ok (map (fun p => d_y p - gam - f (d_t p)) data')).
  Proof.
    intros HM HR. pose proof HD as (DX & DY & DE). pose proof (loop_any v gam HV) as L.
    unfold rv_residuals. rewrite HF, HG, HM. rewrite DX, DY, DE in *. rewrite !map_length, Nat.eqb_refl. cbn [andb].
    unfold vget at 1. rewrite HG, HR. cbn [bind]. rewrite L. reflexivity.
  Qed.

  Lemma logprob_fixed gam jit : marginalised g = false -> r_val g = Some gam -> vget v (l_jidx l) = Ok jit ->
    (forall p, In p data -> 0 < var_of jit p) ->
    rv_logprob fwd l v = (v, Ok (Fin (gauss_loglike f gam jit data'))).
  Proof.
    intros HM HR HJ HW. unfold rv_logprob. rewrite HJ, (residuals_fixed gam HM HR). cbn [bind].
    destruct HD as (DX & DY & DE). rewrite DE, <- (corrected_err cols data). fold data'. rewrite loglike_fin.
    - cbn [bind]. rewrite HG, HM. do 3 f_equal. unfold gauss_loglike. rewrite map2_map_l, map2_map_r, map2_diag. reflexivity.
    - now rewrite !map_length.
    - intros x Hx. apply in_map_iff in Hx. destruct Hx as (p & <- & Hp). exact (corrected_var cols data jit HW p Hp).
  Qed.

  Lemma vget_other i z d : (d <> i)%nat -> vget (setval v i z) d = vget v d.
  Proof.
    intro N. unfold vget, setval. destruct (nth_error v i) eqn:E; auto. rewrite nth_list_upd_other; auto.
  Qed.

  Lemma logprob_marg jit : data <> [] -> marginalised g = true -> vget v (l_jidx l) = Ok jit ->
    (forall p, In p data -> 0 < var_of jit p) ->
    rv_logprob fwd l v = (setval v (l_gidx l) (Some (zmean f jit data)),
      Ok (Fin (gauss_loglike f (zmean f jit data) jit data' + ln (sqrt (2 * PI * / wsum jit data))))).
  Proof.
    intros HE HM HJ HW. pose proof HD as (DX & DY & DE). set (z := zmean f jit data).
    assert (rv_residuals fwd l v = (setval v (l_gidx l) (Some z), Ok (map (fun p => d_y p - z - f (d_t p)) data'))) as HR.
    { pose proof (loop_any (setval v (l_gidx l) (Some z)) z) as L.
      unfold rv_residuals. rewrite HF, HG, HM, HJ. rewrite DX, DY, DE in *. rewrite !map_length, Nat.eqb_refl. cbn [andb].
      rewrite ztil_fin; [|now rewrite !map_length|now rewrite !map_length|destruct data; [congruence|discriminate]|].
      2:{ intros x Hx. apply in_map_iff in Hx. destruct Hx as (p & <- & Hp). exact (HW p Hp). }
      cbn [ztil_value].
      assert (rsum (map2 (fun d x => d / sig_quad jit x) (map2 Rminus (map d_y data) (map f (map d_t data))) (map d_err data)) /
        rsum (map (fun x => 1 / sig_quad jit x) (map d_err data)) = z) as ->.
      { unfold z, zmean, wsum. rewrite (map_map d_t f), (map2_map_l Rminus), (map2_map_r _ (fun x => f (d_t x)) data data), map2_diag, map2_map_l, map2_map_r, map2_diag, map_map.
        f_equal. f_equal. apply map_ext. intro p. unfold sig_quad, var_of, Rdiv. ring. }
      unfold vget at 1. rewrite (nth_setval_same _ _ _ _ HG). cbn [r_val bind]. rewrite L; auto.
      intros d I. rewrite vget_other by auto. auto. }
    unfold rv_logprob. rewrite HJ, HR. cbn [bind]. rewrite DE, <- (corrected_err cols data). fold data'. rewrite loglike_fin.
    - cbn [bind]. rewrite (nth_setval_same _ _ _ _ HG).
      change (marginalised (mkRow (Some z) (r_vary g) (r_scale g) (r_lin g))) with (marginalised g). rewrite HM.
      unfold data' at 3. rewrite corrected_err.
      rewrite (map_ext_in (fun s => ext_div (Fin 1) (Fin (sig_quad jit s))) (fun x => Fin (/ sig_quad jit x)) (map d_err data)).
      2:{ intros b Hb. apply in_map_iff in Hb. destruct Hb as (p & <- & Hp). rewrite ext_div_fin.
          - unfold Rdiv. now rewrite Rmult_1_l.
          - specialize (HW p Hp). change (sig_quad jit (d_err p)) with (var_of jit p). lra. }
      rewrite <- (map_map (fun x => / sig_quad jit x) Fin), ext_sum_fin.
      assert (rsum (map (fun x => / sig_quad jit x) (map d_err data)) = wsum jit data) as -> by (rewrite map_map; reflexivity).
      pose proof (wsum_pos jit data HE HW) as HS. rewrite ext_div_fin by lra. cbn [ext_mul].
      pose proof PI_RGT_0. assert (0 < 2 * PI * (1 / wsum jit data)) as HP.
      { apply Rmult_lt_0_compat; [lra|]. apply Rdiv_lt_0_compat; lra. }
      rewrite ext_sqrt_fin by lra. rewrite ext_log_fin by (now apply sqrt_lt_R0). cbn [ext_add].
      rewrite map2_map_l, map2_map_r, map2_diag. do 3 f_equal. f_equal. f_equal. f_equal. unfold Rdiv. ring.
    - now rewrite !map_length.
    - intros x Hx. apply in_map_iff in Hx. destruct Hx as (p & <- & Hp). exact (corrected_var cols data jit HW p Hp).
  Qed.
End Res.

(** ** how far the marginalised value is from the integral *)
Lemma loglike_shift f jit data z g : data <> [] -> (forall p, In p data -> 0 < var_of jit p) -> z = zmean f jit data ->
  gauss_loglike f g jit data = gauss_loglike f z jit data - wsum jit data / 2 * (g - z) ^ 2.
Proof.
  intros HE HW Z. destruct (gauss_like_pos f g jit data HW) as [P1 Q1], (gauss_like_pos f z jit data HW) as [P2 Q2].
  pose proof (wsum_pos jit data HE HW). rewrite <- Q1, <- Q2, (gauss_like_shift f jit data z g HE HW Z), ln_mult, ln_exp; auto; [|apply exp_pos].
  field. lra.
Qed.
Lemma marginal_gap f jit data data' z : data <> [] -> (forall p, In p data -> 0 < var_of jit p) ->
  length data' = length data -> (forall p, In p data' -> 0 < var_of jit p) -> wsum jit data' = wsum jit data ->
  exists I, is_RInt_gen (fun c => gauss_like f c jit data') (Rbar_locally m_infty) (Rbar_locally p_infty) I /\ 0 < I /\
    gauss_loglike f z jit data' + ln (sqrt (2 * PI * / wsum jit data)) = ln I - wsum jit data / 2 * (z - zmean f jit data') ^ 2.
Proof.
  intros HE HW HL HW' WS. assert (data' <> []) as HE' by (destruct data', data; try discriminate; congruence).
  pose proof (wsum_pos jit data HE HW) as HS. pose proof PI_RGT_0.
  assert (0 < sqrt (2 * PI * / wsum jit data)) as HQ.
  { apply sqrt_lt_R0. apply Rmult_lt_0_compat; [lra|]. now apply Rinv_0_lt_compat. }
  destruct (gauss_like_pos f (zmean f jit data') jit data' HW') as [P Q].
  eexists. split; [now apply marginal_integral|]. rewrite WS. split; [now apply Rmult_lt_0_compat|].
  rewrite ln_mult, Q by auto. rewrite (loglike_shift f jit data' (zmean f jit data') z HE' HW' eq_refl), WS. ring.
Qed.
