(** RVModel as forward model of a likelihood; information criteria (C21);
    composite likelihoods (C51). *)
From Coq Require Import Reals String ZArith Arith Bool Lia Lra Permutation List.
From Verif Require Import Py PyFloat PyFacts PyFloatFacts Params ParamsProofs Kepler KeplerProofs RvTerm Basis RVModel RVModelProofs Likelihood LikeSpec LikeProofs LikeHist LikeDensity.
Import ListNotations.
Open Scope R_scope.

(** ** RVModel computes a function of time *)
Lemma map_res_each (f : R -> res R) ts' :
  (forall t, In t ts' -> exists x, (do l <- map_res f [t]; Ok (Arr l)) = Ok x) ->
  exists v', (do l <- map_res f ts'; Ok (Arr l)) = Ok v'.
Proof.
  intro Q. destruct (map_res_total f ts') as [ys ->].
  - intros t Ht. destruct (Q t Ht) as [x Hx]. cbn [map_res] in Hx. destruct (f t) as [y|]; [eauto|discriminate].
  - cbn [bind]. eauto.
Qed.

Lemma c_drive_each per tp e om k ts' :
  (forall t, In t ts' -> exists x, c_rv_drive_array [t] per tp e om k = Ok x) ->
  exists v', c_rv_drive_array ts' per tp e om k = Ok v'.
Proof. unfold c_rv_drive_array. apply map_res_each. Qed.

Lemma kepler_map_each fuel (f g : R -> R) (h : R -> R) ts' : ts' <> [] ->
  (forall t, In t ts' -> exists x, (do e1 <- kepler fuel (map f [t]) (map g [t]); Ok (npmap h e1)) = Ok x) ->
  exists v', (do e1 <- kepler fuel (map f ts') (map g ts'); Ok (npmap h e1)) = Ok v'.
Proof.
  intros HN Q.
  assert (forall t, In t ts' -> exists u, kepler fuel (map f [t]) (map g [t]) = Ok u) as Q'.
  { intros t Ht. destruct (Q t Ht) as [x Hx]. destruct (kepler fuel (map f [t]) (map g [t])); [eauto|discriminate]. }
  clear Q. destruct fuel as [|fuel].
  { exfalso. destruct ts' as [|t r]; [congruence|]. destruct (Q' t (or_introl eq_refl)) as [x Hx].
    unfold kepler in Hx. discriminate Hx. }
  destruct (kepler_total fuel (map f ts') (map g ts')) as [w ->].
  - now rewrite !map_length.
  - destruct ts'; [congruence|discriminate].
  - intros i M ec HM He.
    rewrite nth_error_map in HM, He. destruct (nth_error ts' i) as [t|] eqn:Et; [|discriminate].
    cbn [option_map] in HM, He. assert (M = f t) by congruence. assert (ec = g t) by congruence. subst M ec.
    destruct (Q' t (nth_error_In _ _ Et)) as [u EK].
    destruct (kepler_pointwise (S fuel) (map f [t]) (map g [t]) u eq_refl EK) as [_ HP].
    destruct (HP 0%nat _ _ eq_refl eq_refl) as (E & HE & _). exists E. exact HE.
  - cbn [bind]. eauto.
Qed.

Lemma true_anomaly_each fuel tp per e ts' : ts' <> [] ->
  (forall t, In t ts' -> exists x, true_anomaly fuel [t] tp per e = Ok x) ->
  exists v', true_anomaly fuel ts' tp per e = Ok v'.
Proof. intros HN. unfold true_anomaly. now apply kepler_map_each. Qed.

Lemma rv_drive_incl use_c fuel ts ts' o v : rv_drive use_c fuel ts o = Ok v -> ts' <> [] -> incl ts' ts ->
  exists v', rv_drive use_c fuel ts' o = Ok v'.
Proof.
  intros H HN HI.
  assert (forall t, In t ts' -> exists x, rv_drive use_c fuel [t] o = Ok x) as Q.
  { intros t Ht. apply HI, In_nth_error in Ht. destruct Ht as [i Hi].
    destruct (rv_drive_single _ _ _ _ _ _ _ H Hi) as (x & _ & E & _). eauto. }
  clear H HI. unfold rv_drive in *. destruct (reqb (o_e o) 0); [eauto|].
  cbv zeta in *.
  generalize dependent (if rltb (99 / 100) (if rltb (o_e o) 0 then 0 else o_e o) then 99 / 100
            else (if rltb (o_e o) 0 then 0 else o_e o)).
  generalize (if rltb (o_per o) 0 then / 10000 else o_per o). intros per e Q.
  destruct use_c.
  - now apply c_drive_each.
  - destruct (true_anomaly_each fuel (o_tp o) per e ts' HN) as [w ->].
    + intros t Ht. destruct (Q t Ht) as [x Hx]. destruct (true_anomaly fuel [t] (o_tp o) per e); [eauto|discriminate].
    + cbn [bind]. eauto.
Qed.

Lemma call_incl use_c fuel m t t' pn vel : rvmodel_call use_c fuel m t pn = Ok vel -> t' <> [] -> incl t' t ->
  exists vel', rvmodel_call use_c fuel m t' pn = Ok vel'.
Proof.
  intros HC HN HI. destruct (superposition _ _ _ _ _ _ HC) as (w & dvdt & curv & os & cs & EW & TR & L1 & L2 & HH & _).
  apply (call_succeeds use_c fuel m t' pn w dvdt curv EW TR).
  intros n Hn. apply In_nth_error in Hn. destruct Hn as [j Hj].
  assert (j < length (planets_of (m_params m) pn))%nat as Hjl by (apply nth_error_Some; congruence).
  destruct (nth_error os j) as [o|] eqn:Eo; [|apply nth_error_None in Eo; lia].
  destruct (nth_error cs j) as [c|] eqn:Ec; [|apply nth_error_None in Ec; lia].
  destruct (HH j n o c Hj Eo Ec) as (A & x & B & C).
  destruct (rv_drive_incl _ _ _ t' _ _ B HN HI) as [y Hy]. eauto.
Qed.

(** velocity of the model at one time *)
Definition vel_at (use_c : bool) (fuel : nat) (m : rvmodel) (pn : option Z) (t : R) : R :=
  match rvmodel_call use_c fuel m [t] pn with Ok (v :: _) => v | _ => 0 end.

Lemma call_is_map use_c fuel m t pn vel : rvmodel_call use_c fuel m t pn = Ok vel ->
  vel = map (vel_at use_c fuel m pn) t.
Proof.
  intro HC. apply nth_error_ext'. intro i. rewrite nth_error_map.
  destruct (nth_error t i) as [ti|] eqn:Et.
  - destruct (call_pointwise _ _ _ _ _ _ _ _ HC Et) as (v & A & ->). cbn. unfold vel_at. now rewrite A.
  - destruct (superposition _ _ _ _ _ _ HC) as (w & dvdt & curv & os & cs & _ & _ & _ & _ & _ & LV & _).
    cbn. apply nth_error_None. apply nth_error_None in Et. lia.
Qed.

(** an RV likelihood of an RVModel does not depend on the order of the data *)
Lemma rvmodel_perm use_c fuel ps idx names tb l l' v data data' vel g jit :
  let fwd := rv_forward use_c fuel ps idx names tb in
  has_data l data -> has_data l' data' -> Permutation data data' ->
  l_gidx l' = l_gidx l -> l_jidx l' = l_jidx l -> l_decorr l = [] -> l_decorr l' = [] ->
  fwd v (l_x l) = Ok vel ->
  nth_error v (l_gidx l) = Some g -> (exists gam, r_val g = Some gam) -> l_jidx l <> l_gidx l ->
  vget v (l_jidx l) = Ok jit -> data <> [] -> (forall p, In p data -> 0 < var_of jit p) ->
  rv_logprob fwd l v = rv_logprob fwd l' v.
Proof.
  intros fwd HD HD' HP EG EJ HC HC' HF HG HV HJG HJ HN HW.
  pose proof HD as (DX & _ & _). pose proof HD' as (DX' & _ & _).
  assert (exists vel', fwd v (l_x l') = Ok vel') as [vel' HF'].
  { unfold fwd, rv_forward in *. apply (call_incl _ _ _ _ _ _ _ HF).
    - rewrite DX'. destruct data'; [|discriminate]. apply Permutation_sym, Permutation_nil in HP. congruence.
    - rewrite DX, DX'. intros x Hx. apply in_map_iff in Hx. destruct Hx as (p & <- & Hp). apply in_map.
      now apply (Permutation_in _ (Permutation_sym HP)). }
  apply (logprob_perm fwd l l' v data data'
           (vel_at use_c fuel (mkRVModel ps (mkVector idx v names) tb) None) g jit); auto.
  - rewrite HF. f_equal. now apply call_is_map.
  - rewrite HF'. f_equal. now apply call_is_map.
Qed.

(** ** C21 *)
Lemma bic_value lp n v c v2 L : cache_fresh c v -> lp v = (v2, Ok (Fin L)) -> (0 < n)%nat ->
  snd (bic lp n (v, c)) = Ok (Fin (INR (n_free v) * ln (INR n) - 2 * L)).
Proof.
  intros HC HL Hn. unfold bic. cbn [fst snd].
  destruct (get_ok v c HC) as (vals & c' & -> & _ & HLen & _). rewrite HL. cbn [bind snd].
  rewrite ext_log_fin by (now apply lt_0_INR). cbn. rewrite HLen. do 2 f_equal. ring.
Qed.

Lemma aic_value lp n v c v2 L : cache_fresh c v -> lp v = (v2, Ok (Fin L)) ->
  let k := n_free v in
  snd (aic lp n (v, c)) =
  Ok (if Nat.ltb (k + 1) n
      then Fin (2 * INR k - 2 * L + 2 * INR k * (INR k + 1) / (INR n - INR k - 1))
      else PInf).
Proof.
  intros HC HL k. unfold aic. cbn [fst snd].
  destruct (get_ok v c HC) as (vals & c' & -> & _ & HLen & _). rewrite HL. cbn [bind snd].
  rewrite HLen. fold k. unfold rltb. f_equal.
  destruct (Rlt_dec 0 (INR n - INR k - 1)) as [H|H], (Nat.ltb_spec (k + 1) n) as [Hn|Hn]; auto.
  - cbn. f_equal. unfold Rdiv. ring.
  - exfalso. apply le_INR in Hn. rewrite plus_INR in Hn. cbn in Hn. lra.
  - exfalso. apply lt_INR in Hn. rewrite plus_INR in Hn. cbn in Hn. lra.
Qed.

(** a failing or non-finite likelihood: the criteria raise or are not finite *)
Lemma bic_err lp n v c v2 e : cache_fresh c v -> lp v = (v2, Err e) -> snd (bic lp n (v, c)) = Err e.
Proof.
  intros HC HL. unfold bic. cbn [fst snd]. destruct (get_ok v c HC) as (vals & c' & -> & _ & _). now rewrite HL.
Qed.

(** ** C51: sums and concatenations *)
Section Comp.
  Variables (ls : list rvlike) (v0 : list row) (fwd : forward).
  Hypothesis FB : fwd_blind ls v0 fwd.

  Lemma comp_logprob_from_sum ms : incl ms ls -> (forall l, In l ms -> separate ls v0 l) ->
    forall xs, Forall2 (fun l x => snd (rv_logprob fwd l v0) = Ok x) ms xs ->
    forall acc v, agree (marg_rows ls v0) v0 v ->
      snd (comp_logprob_from acc (map (rv_member fwd) ms) v) = Ok (fold_left ext_add xs acc).
  Proof.
    intros HI HS xs H. revert HI HS. induction H as [|l x ms xs Hx H IH]; intros HI HS acc v A; [reflexivity|].
    assert (In l ls) as Hl by (apply HI; now left).
    cbn [map comp_logprob_from rv_member mb_logprob].
    pose proof (logprob_blind ls v0 fwd FB l Hl (HS l (or_introl eq_refl)) v0 v (agree_refl _ _) A) as Q.
    pose proof (logprob_frame ls v0 fwd l Hl v (same_shape_of _ _ _ A)) as F.
    rewrite Hx in Q. destruct (rv_logprob fwd l v) as [v1 r]. cbn in Q, F. subst r. cbn [fold_left].
    apply IH; [intros k Hk; apply HI; now right|intros k Hk; apply HS; now right|].
    eapply agree_trans; [exact A|exact F].
  Qed.

  (** each member evaluated on its own at the same parameters *)
  Lemma composite_logprob_sum xs : (forall l, In l ls -> separate ls v0 l) ->
    Forall2 (fun l x => snd (rv_logprob fwd l v0) = Ok x) ls xs ->
    snd (comp_logprob (map (rv_member fwd) ls) v0) = Ok (ext_sum xs).
  Proof.
    intros HS H. apply comp_logprob_from_sum; auto; [apply incl_refl|apply agree_refl].
  Qed.

  Lemma comp_residuals_from_app ms : incl ms ls -> (forall l, In l ms -> separate ls v0 l) ->
    forall xs, Forall2 (fun l x => snd (rv_residuals fwd l v0) = Ok x) ms xs ->
    forall acc v, agree (marg_rows ls v0) v0 v ->
      snd (comp_residuals_from acc (map (rv_member fwd) ms) v) = Ok (acc ++ concat xs)%list.
  Proof.
    intros HI HS xs H. revert HI HS. induction H as [|l x ms xs Hx H IH]; intros HI HS acc v A.
    { cbn. now rewrite app_nil_r. }
    assert (In l ls) as Hl by (apply HI; now left).
    cbn [map comp_residuals_from rv_member mb_residuals].
    destruct (residuals_agree ls v0 fwd FB l v0 v Hl (HS l (or_introl eq_refl)) (agree_refl _ _) A) as [Q _].
    pose proof (residuals_frame ls v0 fwd l Hl v (same_shape_of _ _ _ A)) as F.
    rewrite Hx in Q. destruct (rv_residuals fwd l v) as [v1 r]. cbn in Q, F. subst r. cbn [concat].
    rewrite IH; [now rewrite app_assoc|intros k Hk; apply HI; now right|intros k Hk; apply HS; now right|].
    eapply agree_trans; [exact A|exact F].
  Qed.

  Lemma comp_residuals_app ms xs : incl ms ls -> ms <> [] -> (forall l, In l ms -> separate ls v0 l) ->
    Forall2 (fun l x => snd (rv_residuals fwd l v0) = Ok x) ms xs ->
    snd (comp_residuals (map (rv_member fwd) ms) v0) = Ok (concat xs).
  Proof.
    intros HI HN HS H. destruct H as [|l x ms xs Hx H]; [congruence|].
    cbn [map comp_residuals rv_member mb_residuals concat].
    pose proof (residuals_frame ls v0 fwd l (HI l (or_introl eq_refl)) v0 (agree_refl _ _)) as F.
    destruct (rv_residuals fwd l v0) as [v1 r] eqn:E. cbn in Hx, F. subst r.
    apply (comp_residuals_from_app ms); auto; [intros k Hk; apply HI; now right|intros k Hk; apply HS; now right].
  Qed.

  Lemma composite_residuals_concat xs : ls <> [] -> (forall l, In l ls -> separate ls v0 l) ->
    Forall2 (fun l x => snd (rv_residuals fwd l v0) = Ok x) ls xs ->
    snd (comp_residuals (map (rv_member fwd) ls) v0) = Ok (concat xs).
  Proof. intros. apply comp_residuals_app; auto. apply incl_refl. Qed.

  Lemma composite_errorbars_concat (ms : list rvlike) v xs : ms <> [] ->
    Forall2 (fun l x => rv_errorbars l v = Ok x) ms xs ->
    comp_errorbars (map (rv_member fwd) ms) v = Ok (concat xs).
  Proof.
    intros HN H. destruct H as [|l x ms xs Hx H]; [congruence|].
    cbn [map comp_errorbars rv_member mb_errorbars concat]. rewrite Hx. cbn [bind]. clear HN Hx.
    revert x. induction H as [|k y ms ys Hy H IH]; intro acc; cbn; [now rewrite app_nil_r|].
    rewrite Hy. cbn. rewrite IH. now rewrite app_assoc.
  Qed.
End Comp.

Lemma concat_one_value {A} (f : A -> R) (xs : list A) : concat (map (fun x => [f x]) xs) = map f xs.
Proof. induction xs; cbn; congruence. Qed.

(** ** C51: the constructor *)
Lemma comp_steps_data h v vid r : forall acc c, for_each r (comp_step h v vid) acc = Ok c ->
  cp_x c = (cp_x acc ++ concat (map (fun m => l_x (c_like m)) r))%list /\
  cp_yerr c = (cp_yerr acc ++ concat (map (fun m => l_yerr (c_like m)) r))%list /\
  cp_telvec c = (cp_telvec acc ++ concat (map (fun m => l_telvec (c_like m)) r))%list /\
  cp_suffixes c = (cp_suffixes acc ++ map (fun m => l_suffix (c_like m)) r)%list /\
  cp_likes c = (cp_likes acc ++ r)%list /\ Forall (fun m => c_vector_id m = vid) r.
Proof.
  induction r as [|m r IH]; intros acc c H.
  - cbn in H. inversion H; subst. cbn. rewrite !app_nil_r. repeat split; auto.
  - cbn [for_each] in H. unfold comp_step at 1 in H.
    destruct (dget_res _ _) as [gi|]; [|discriminate]. cbn [bind] in H.
    destruct (vget v gi) as [g|]; [|discriminate]. cbn [bind] in H.
    destruct (merge_params _ _ _) as [d|]; [|discriminate]. cbn [bind] in H.
    destruct (Nat.eqb_spec (c_vector_id m) vid) as [EV|]; [|discriminate]. cbn [bind] in H.
    destruct (IH _ _ H) as (A & B & C & D & E & F). cbn [cp_x cp_yerr cp_telvec cp_suffixes cp_likes] in *.
    cbn [map concat]. rewrite A, B, C, D, E. rewrite <- !app_assoc. repeat split; auto.
Qed.

Lemma composite_data h v likes c : composite_init h v likes = Ok c ->
  cp_x c = concat (map (fun m => l_x (c_like m)) likes) /\
  cp_yerr c = concat (map (fun m => l_yerr (c_like m)) likes) /\
  cp_telvec c = concat (map (fun m => l_telvec (c_like m)) likes) /\
  cp_suffixes c = map (fun m => l_suffix (c_like m)) likes /\
  cp_likes c = likes /\
  forall m m', In m likes -> In m' likes -> c_vector_id m = c_vector_id m'.
Proof.
  destruct likes as [|m0 r]; [discriminate|]. cbn [composite_init]. intro H.
  destruct (comp_steps_data _ _ _ _ _ _ H) as (A & B & C & D & E & F).
  cbn [cp_x cp_yerr cp_telvec cp_suffixes cp_likes] in *. repeat split; auto.
  rewrite Forall_forall in F.
  assert (forall m, In m (m0 :: r) -> c_vector_id m = c_vector_id m0) as G by (intros m [<-|Hm]; auto).
  intros m m' Hm Hm'. now rewrite (G m Hm), (G m' Hm').
Qed.

(** equality of parameters is an equivalence *)
Lemma option_reqb_true a b : option_reqb a b = true <-> a = b.
Proof.
  destruct a, b; cbn; try (split; congruence). unfold reqb. destruct (Req_EM_T r r0); split; congruence.
Qed.
Lemma vary_eqb_true a b : vary_eqb a b = true <-> a = b.
Proof.
  destruct a, b; cbn; try (split; congruence). rewrite Bool.eqb_true_iff. split; congruence.
Qed.
Lemma param_equals_iff p q : param_equals p q = true <->
  p_value p = p_value q /\ p_vary p = p_vary q /\ p_scale p = p_scale q.
Proof.
  unfold param_equals. rewrite !andb_true_iff, !option_reqb_true, vary_eqb_true. tauto.
Qed.

(** two dictionaries hold the same value, vary flag and scale under [k] *)
Definition same_param (h : heap) (d1 d2 : dict nat) (k : string) : Prop :=
  forall p, get_param h d1 k = Some p -> exists q, get_param h d2 k = Some q /\
    p_value p = p_value q /\ p_vary p = p_vary q /\ p_scale p = p_scale q.

Lemma merge_inv h d2 : forall ks d d',
  for_each ks
    (fun d k => if dmem d k
                then match get_param h d2 k, get_param h d k with
                     | Some p, Some q => if param_equals p q then Ok d else Err AssertionError
                     | _, _ => Err (KeyError k)
                     end
                else do l <- dget_res d2 k; Ok (dset d k l)) d = Ok d' ->
  (forall k l, dget d k = Some l -> dget d' k = Some l) /\
  (forall k, In k ks -> exists l, dget d' k = Some l /\ (dget d k = None -> dget d2 k = Some l) /\ same_param h d2 d' k).
Proof.
  induction ks as [|k ks IH]; intros d d' H; cbn [for_each] in H.
  - inversion H; subst. split; auto. intros k [].
  - destruct (dmem d k) eqn:EM.
    + destruct (get_param h d2 k) as [p|] eqn:Ep; [|discriminate]. destruct (get_param h d k) as [q|] eqn:Eq; [|discriminate].
      destruct (param_equals p q) eqn:EE; [|discriminate]. cbn [bind] in H.
      destruct (IH _ _ H) as [A B]. split; auto. intros k' [<-|Hk]; auto.
      unfold dmem in EM. destruct (dget d k) as [l|] eqn:El; [|discriminate].
      exists l. split; [auto|]. split; [congruence|]. intros p' Hp.
      assert (p' = p) by congruence. subst p'. exists q. split; [|now apply param_equals_iff].
      unfold get_param in *. rewrite (A k l El). now rewrite El in Eq.
    + destruct (dget_res d2 k) as [l|] eqn:El; [|discriminate]. cbn [bind] in H.
      unfold dget_res in El. destruct (dget d2 k) as [l'|] eqn:El'; [|discriminate]. inversion El; subst l'.
      unfold dmem in EM. destruct (dget d k) as [|] eqn:Ed; [discriminate|].
      destruct (IH _ _ H) as [A B]. split.
      * intros k' l' Hk'. apply A. destruct (String.eqb_spec k k') as [<-|N]; [congruence|].
        now rewrite dget_dset_other by auto.
      * intros k' [<-|Hk].
        -- exists l. assert (dget d' k = Some l) as E' by (apply A; apply dget_dset_same).
           split; auto. split; auto. intros p Hp. exists p. split; auto. unfold get_param in *. rewrite El' in Hp. now rewrite E'.
        -- destruct (B k' Hk) as (l2 & B1 & B2 & B3). exists l2. split; auto. split; auto.
           intro Hn. destruct (String.eqb_spec k k') as [<-|N].
           ++ assert (dget d' k = Some l) by (apply A; apply dget_dset_same). congruence.
           ++ apply B2. now rewrite dget_dset_other by auto.
Qed.

Lemma comp_steps_params h v vid r : forall acc c, for_each r (comp_step h v vid) acc = Ok c ->
  (forall k l, dget (cp_items acc) k = Some l -> dget (cp_items c) k = Some l) /\
  (forall m k, In m r -> In k (dkeys (c_items m)) -> same_param h (c_items m) (cp_items c) k).
Proof.
  induction r as [|m r IH]; intros acc c H.
  - cbn in H. inversion H; subst. split; auto; intros m k [].
  - cbn [for_each] in H. unfold comp_step at 1 in H.
    destruct (dget_res _ _) as [gi|]; [|discriminate]. cbn [bind] in H.
    destruct (vget v gi) as [g|]; [|discriminate]. cbn [bind] in H.
    destruct (merge_params _ _ _) as [d|] eqn:EM; [|discriminate]. cbn [bind] in H.
    destruct (Nat.eqb_spec (c_vector_id m) vid) as [EV|]; [|discriminate]. cbn [bind] in H.
    destruct (IH _ _ H) as (A & B). cbn [cp_items] in *.
    unfold merge_params in EM. destruct (merge_inv h (c_items m) _ _ _ EM) as [M1 M2].
    split; [intros; apply A, M1; auto|].
    intros m' k [<-|Hm] Hk; [|eapply B; eauto].
    destruct (M2 k Hk) as (l & E1 & _ & E2). intros p Hp. destruct (E2 p Hp) as (q & Hq & E). exists q. split; auto.
    unfold get_param in *. rewrite (A k l E1). now rewrite E1 in Hq.
Qed.

(** members that disagree on a shared parameter cannot be combined *)
Lemma composite_agreement h v likes c : composite_init h v likes = Ok c ->
  forall m m' k p q, In m likes -> In m' likes ->
    get_param h (c_items m) k = Some p -> get_param h (c_items m') k = Some q ->
    p_value p = p_value q /\ p_vary p = p_vary q /\ p_scale p = p_scale q.
Proof.
  destruct likes as [|m0 r]; [discriminate|]. cbn [composite_init]. intro H.
  destruct (comp_steps_params _ _ _ _ _ _ H) as (A & B). cbn [cp_items] in *.
  assert (forall m k, In m (m0 :: r) -> same_param h (c_items m) (cp_items c) k) as Q.
  { intros m k [<-|Hm] p Hp; unfold get_param in Hp.
    - destruct (dget (c_items m0) k) as [l|] eqn:El; [|discriminate].
      exists p. split; auto. unfold get_param. now rewrite (A k l El).
    - destruct (dget (c_items m) k) as [l|] eqn:El; [|discriminate].
      apply (B m k Hm (dget_key _ _ _ El)). unfold get_param. now rewrite El. }
  intros m m' k p q Hm Hm' Hp Hq.
  destruct (Q m k Hm p Hp) as (s & E & ? & ? & ?), (Q m' k Hm' q Hq) as (s' & E' & ? & ? & ?).
  assert (s' = s) by congruence. subst s'. repeat split; congruence.
Qed.
