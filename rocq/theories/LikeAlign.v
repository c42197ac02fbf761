(** Composite likelihoods of constructed members: sums, order and alignment
    of the concatenated arrays. *)
From Coq Require Import Reals String Arith ZArith Bool Lia Lra List.
From Verif Require Import Py PyFloat PyFacts PyFloatFacts Params ParamsProofs ParamsSpec VectorProofs Kepler Basis RVModel RVModelProofs
  Likelihood LikeSpec LikeProofs LikeHist LikeDensity LikeMore LikeBuild.
Import ListNotations.
Open Scope R_scope.

Lemma map2_len {A B C} (f : A -> B -> C) a b : length a = length b -> length (map2 f a b) = length a.
Proof. revert b. induction a as [|x a IH]; intros [|y b]; cbn; intro H; try discriminate; auto. Qed.

Lemma decorr_len l v ks : forall r r', for_each ks (fun r p => decorr_step l v r p) r = Ok r' -> length r' = length r.
Proof.
  induction ks as [|k ks IH]; cbn; intros r r' H; [congruence|].
  destruct (decorr_step l v r k) as [r1|] eqn:E; [|discriminate]. cbn in H. rewrite (IH _ _ H).
  unfold decorr_step in E. destruct (nth_error (split_us k "") 1); [|discriminate].
  destruct (map_res _ _); [|discriminate]. cbn in E. destruct (dget_res _ _) as [vec|]; [|discriminate]. cbn in E.
  destruct (Nat.eqb_spec (length vec) (length r)); [|discriminate]. injection E as <-. now rewrite map2_len.
Qed.

Lemma residuals_len fwd l v r : (forall m, fwd v (l_x l) = Ok m -> length m = length (l_x l)) ->
  snd (rv_residuals fwd l v) = Ok r ->
  length r = length (l_x l) /\ length (l_y l) = length (l_x l) /\ length (l_yerr l) = length (l_x l).
Proof.
  intros HF. unfold rv_residuals. destruct (fwd v (l_x l)) as [m|] eqn:E; [|discriminate]. specialize (HF m eq_refl).
  destruct (nth_error v (l_gidx l)) as [g|]; [|discriminate].
  destruct (Nat.eqb_spec (length m) (length (l_y l))) as [A|]; [|discriminate].
  destruct (Nat.eqb_spec (length (l_yerr l)) (length (l_y l))) as [B|]; [|discriminate]. cbn [andb].
  set (step1 := if marginalised g then _ else _). destruct step1 as [v1|]; [|discriminate]. cbn [snd].
  destruct (vget v1 (l_gidx l)) as [gam|]; [|discriminate]. cbn [bind]. intro H. apply decorr_len in H.
  rewrite map2_len, map_length in H by (rewrite map_length; lia). lia.
Qed.

(** position [k] of concatenated blocks *)
Lemma concat_at {A} (k : nat) : forall (ls : list A) (f : A -> list R), (k < length (concat (map f ls)))%nat ->
  exists pre a post j, ls = (pre ++ a :: post)%list /\ k = (length (concat (map f pre)) + j)%nat /\ (j < length (f a))%nat.
Proof.
  intros ls f. revert k. induction ls as [|a ls IH]; cbn; intros k H; [lia|]. rewrite app_length in H.
  destruct (Nat.ltb_spec k (length (f a))) as [L|L].
  - exists [], a, ls, k. auto.
  - destruct (IH (k - length (f a))%nat) as (pre & b & post & j & E1 & E2 & E3); [lia|].
    exists (a :: pre), b, post, j. cbn. rewrite app_length. subst ls. split; [reflexivity|]. lia.
Qed.

Lemma concat_block {A B} (f : A -> list R) (g : A -> list B) pre a post j :
  (forall x, In x (pre ++ a :: post) -> length (g x) = length (f x)) -> (j < length (f a))%nat ->
  nth_error (concat (map g (pre ++ a :: post))) (length (concat (map f pre)) + j) = nth_error (g a) j.
Proof.
  intros HL Hj. rewrite map_app, concat_app. cbn [map concat].
  assert (length (concat (map g pre)) = length (concat (map f pre))) as E.
  { assert (forall x, In x pre -> length (g x) = length (f x)) as HP by (intros; apply HL, in_or_app; auto).
    clear - HP. induction pre as [|x p IH]; cbn; [reflexivity|]. rewrite !app_length, HP by (now left).
    rewrite IH; [reflexivity|]. intros; apply HP; now right. }
  rewrite nth_error_app2 by lia. rewrite E. replace (_ + j - _)%nat with j by lia.
  rewrite nth_error_app1; [reflexivity|]. rewrite HL; [exact Hj|]. apply in_or_app. right. now left.
Qed.

Lemma build_likes_tel ds : forall h ps vec h1 ps1 vec1 ls, build_likes h ps vec ds = Ok (h1, ps1, vec1, ls) ->
  Forall2 (fun d l => l_x l = ds_t d /\ l_y l = ds_y d /\ l_yerr l = ds_err d /\
                      l_telvec l = map (fun _ => strip_us (ds_suffix d)) (ds_t d)) ds ls.
Proof.
  induction ds as [|d ds IH]; cbn [build_likes]; intros h ps vec h1 ps1 vec1 ls H.
  - injection H as <- <- <- <-. constructor.
  - destruct (rvlike_init _ _ _ _ _ _ _ _ _) as [[[[ha pa] va] l]|] eqn:E; [|discriminate]. cbn [bind] in H.
    destruct (build_likes ha pa va ds) as [[[[hb pb] vb] ls']|] eqn:E'; [|discriminate]. cbn [bind] in H.
    injection H as <- <- <- <-. constructor; [|now apply IH in E'].
    unfold rvlike_init in E. destruct (likelihood_init _ _ _ _ _) as [[[hc dc] vc]|]; [|discriminate]. cbn [bind] in E.
    destruct (dget_res _ _); [|discriminate]. cbn [bind] in E. destruct (dget_res _ _); [|discriminate]. cbn [bind] in E.
    injection E as <- <- <- <-. cbn. auto.
Qed.

Lemma built_setting h ps b names vec ds h1 ps1 vec1 ls use_c fuel tb v :
  layout (ps_num ps) b names (dkeys (ps_items ps)) -> b_num (ps_basis ps) = ps_num ps ->
  vector_init h ps = Ok vec -> build_likes h ps vec ds = Ok (h1, ps1, vec1, ls) ->
  fwd_blind ls v (rv_forward use_c fuel ps1 (v_indices vec1) (v_names vec1) tb) /\
  forall l, In l ls -> separate ls v l.
Proof.
  intros L HN EV EB. pose proof (vector_init_in_step _ _ _ _ _ L EV) as HI.
  destruct (build_likes_ok _ _ _ _ _ _ _ _ _ HI EB) as ((A & _) & _ & C & D & E). split.
  - apply rv_forward_blind; rewrite ?E, ?D; auto.
    + intros i Hi. rewrite (io_dvdt _ _ _ A) in Hi. inversion Hi. lia.
    + intros i Hi. rewrite (io_curv _ _ _ A) in Hi. inversion Hi. lia.
    + intros l Hl. apply (like_gidx _ _ _ _ A). auto.
  - now apply (likes_separate (ps_num ps) (v_indices vec1) (length (v_vector vec1))).
Qed.

Section Built.
  Variables (h : heap) (ps : params) (b : string) (names : list string) (vec : vector) (ds : list dataset).
  Variables (h1 : heap) (ps1 : params) (vec1 : vector) (ls : list rvlike) (use_c : bool) (fuel : nat) (tb : R) (v : list row).
  Hypothesis L : layout (ps_num ps) b names (dkeys (ps_items ps)).
  Hypothesis HN : b_num (ps_basis ps) = ps_num ps.
  Hypothesis EV : vector_init h ps = Ok vec.
  Hypothesis EB : build_likes h ps vec ds = Ok (h1, ps1, vec1, ls).
  Let fwd := rv_forward use_c fuel ps1 (v_indices vec1) (v_names vec1) tb.

  Lemma built_sum xs : Forall2 (fun l x => snd (rv_logprob fwd l v) = Ok x) ls xs ->
    snd (comp_logprob (map (rv_member fwd) ls) v) = Ok (ext_sum xs).
  Proof.
    destruct (built_setting h ps b names vec ds h1 ps1 vec1 ls use_c fuel tb v L HN EV EB) as [FB SP].
    now apply composite_logprob_sum.
  Qed.

  Lemma built_aligned (H : heap) likes c rs es :
    map c_like likes = ls -> composite_init H v likes = Ok c ->
    Forall2 (fun l x => snd (rv_residuals fwd l v) = Ok x) ls rs ->
    Forall2 (fun l x => rv_errorbars l v = Ok x) ls es ->
    exists r e, snd (comp_residuals (map (rv_member fwd) ls) v) = Ok r /\
      comp_errorbars (map (rv_member fwd) ls) v = Ok e /\
      length r = length (cp_x c) /\ length e = length (cp_x c) /\
      length (cp_yerr c) = length (cp_x c) /\ length (cp_telvec c) = length (cp_x c) /\
      length (cp_x c) = length (concat (map ds_t ds)) /\
      forall k, (k < length (cp_x c))%nat ->
        exists pre d post l j rl el,
          ds = (pre ++ d :: post)%list /\ k = (length (concat (map ds_t pre)) + j)%nat /\ (j < length (ds_t d))%nat /\
          nth_error ls (length pre) = Some l /\
          snd (rv_residuals fwd l v) = Ok rl /\ nth_error r k = nth_error rl j /\
          rv_errorbars l v = Ok el /\ nth_error e k = nth_error el j /\
          nth_error (cp_x c) k = nth_error (ds_t d) j /\ nth_error (cp_yerr c) k = nth_error (ds_err d) j /\
          nth_error (cp_telvec c) k = Some (strip_us (ds_suffix d)).
  Proof.
    intros EL EC HR HE.
    destruct (built_setting h ps b names vec ds h1 ps1 vec1 ls use_c fuel tb v L HN EV EB) as [FB SP].
    assert (ls <> []) as NE. { intros ->. destruct likes; [discriminate EC|discriminate EL]. }
    destruct (composite_data _ _ _ _ EC) as (X & Y & T & _).
    pose proof (build_likes_tel _ _ _ _ _ _ _ _ EB) as BT.
    assert (forall (B : Type) (f : rvlike -> list B), map (fun m => f (c_like m)) likes = map f ls) as EM.
    { intros B f. rewrite <- EL, map_map. reflexivity. }
    rewrite !EM in *.
    assert (Forall2 (fun l x => snd (rv_residuals fwd l v) = Ok x /\ length x = length (l_x l) /\ length (l_yerr l) = length (l_x l)) ls rs) as HR2.
    { clear - HR. induction HR as [|l x ls rs A H IH]; constructor; auto. split; [exact A|].
      destruct (residuals_len fwd l v x) as (P & Q & S); auto.
      intros m Hm. unfold fwd, rv_forward in Hm. apply call_is_map in Hm. subst m. now rewrite map_length. }
    exists (concat rs), (concat es).
    split; [apply (composite_residuals_concat ls v fwd FB); auto|].
    split; [apply composite_errorbars_concat; auto|].
    (* put everything in one list of blocks *)
    assert (exists bl : list (dataset * (rvlike * (list R * list R))),
      ds = map fst bl /\ ls = map (fun z => fst (snd z)) bl /\ rs = map (fun z => fst (snd (snd z))) bl /\ es = map (fun z => snd (snd (snd z))) bl /\
      forall z, In z bl -> let '(d, (l, (r, e))) := z in
        (l_x l = ds_t d /\ l_yerr l = ds_err d /\ l_telvec l = map (fun _ => strip_us (ds_suffix d)) (ds_t d)) /\
        snd (rv_residuals fwd l v) = Ok r /\ length r = length (l_x l) /\ length (l_yerr l) = length (l_x l) /\
        rv_errorbars l v = Ok e /\ length e = length (l_x l)) as (bl & B1 & B2 & B3 & B4 & HB).
    { clear - BT HR2 HE. revert rs es HR2 HE. induction BT as [|d l ds' ls' A BT IH]; intros rs es HR HE; inversion HR; inversion HE; subst.
      - exists []. repeat split; auto. intros z [].
      - match goal with H : Forall2 _ ls' ?a, G : Forall2 _ ls' ?b |- _ => destruct (IH a b H G) as (bl & -> & -> & -> & -> & HB) end.
        exists ((d, (l, (y, y0))) :: bl). cbn. repeat split; auto. intros z [<-|Hz]; [|now apply HB].
        match goal with H : _ /\ length y = _ /\ _ |- _ => destruct H as (P1 & P2 & P3) end.
        destruct A as (A1 & A2 & A3 & A4). repeat split; auto.
        match goal with H : rv_errorbars l v = Ok y0 |- _ => unfold rv_errorbars in H; destruct (vget v (l_jidx l)); [|discriminate]; cbn in H; injection H as <- end.
        rewrite map_length. congruence. }
    assert (forall (B : Type) (g : dataset * (rvlike * (list R * list R)) -> list B),
      (forall z, In z bl -> length (g z) = length (ds_t (fst z))) -> length (concat (map g bl)) = length (concat (map (fun z => ds_t (fst z)) bl))) as LEN.
    { intros B g. clear. induction bl as [|z p IH]; cbn; intro Q; [reflexivity|]. rewrite !app_length, Q by (now left). rewrite IH; auto. }
    assert (cp_x c = concat (map (fun z => l_x (fst (snd z))) bl)) as X' by (rewrite X, B2, map_map; reflexivity).
    assert (cp_yerr c = concat (map (fun z => l_yerr (fst (snd z))) bl)) as Y' by (rewrite Y, B2, map_map; reflexivity).
    assert (cp_telvec c = concat (map (fun z => l_telvec (fst (snd z))) bl)) as T' by (rewrite T, B2, map_map; reflexivity).
    assert (concat (map ds_t ds) = concat (map (fun z => ds_t (fst z)) bl)) as D' by (rewrite B1, map_map; reflexivity).
    assert (forall z, In z bl -> length (fst (snd (snd z))) = length (ds_t (fst z)) /\ length (snd (snd (snd z))) = length (ds_t (fst z)) /\
       length (l_x (fst (snd z))) = length (ds_t (fst z)) /\ length (l_yerr (fst (snd z))) = length (ds_t (fst z)) /\
       length (l_telvec (fst (snd z))) = length (ds_t (fst z))) as LZ.
    { intros [d [l [r e]]] Hz. destruct (HB _ Hz) as ((P1 & P2 & P3) & P4 & P5 & P6 & P7 & P8). cbn.
      rewrite P3, map_length. rewrite <- P1. repeat split; congruence. }
    rewrite X', Y', T', D', B3, B4.
    rewrite (LEN _ (fun z => fst (snd (snd z)))) by (intros z Hz; apply (LZ z Hz)).
    rewrite (LEN _ (fun z => snd (snd (snd z)))) by (intros z Hz; apply (LZ z Hz)).
    rewrite (LEN _ (fun z => l_x (fst (snd z)))) by (intros z Hz; apply (LZ z Hz)).
    rewrite (LEN _ (fun z => l_yerr (fst (snd z)))) by (intros z Hz; apply (LZ z Hz)).
    rewrite (LEN _ (fun z => l_telvec (fst (snd z)))) by (intros z Hz; apply (LZ z Hz)).
    do 5 (split; [reflexivity|]). intros k Hk.
    destruct (concat_at k bl (fun z => ds_t (fst z)) Hk) as (pre & [d [l [r e]]] & post & j & E1 & E2 & E3).
    assert (In (d, (l, (r, e))) bl) as Hz by (rewrite E1; apply in_or_app; right; now left).
    destruct (HB _ Hz) as ((P1 & P2 & P3) & P4 & P5 & P6 & P7 & P8).
    exists (map fst pre), d, (map fst post), l, j, r, e.
    split; [rewrite B1, E1, map_app; reflexivity|].
    split; [rewrite map_map; exact E2|]. split; [exact E3|].
    split. { rewrite B2, E1, map_app, map_length, nth_error_app2, map_length, Nat.sub_diag; [reflexivity|rewrite map_length; lia]. }
    subst k. rewrite E1 in LZ |- *. cbn [fst] in E3.
    split; [exact P4|]. split; [apply (concat_block (fun z => ds_t (fst z)) (fun z => fst (snd (snd z)))); [intros z Hx; apply (LZ z Hx)|exact E3]|].
    split; [exact P7|]. split; [apply (concat_block (fun z => ds_t (fst z)) (fun z => snd (snd (snd z)))); [intros z Hx; apply (LZ z Hx)|exact E3]|].
    split; [rewrite <- P1; apply (concat_block (fun z => ds_t (fst z)) (fun z => l_x (fst (snd z)))); [intros z Hx; apply (LZ z Hx)|exact E3]|].
    split; [rewrite <- P2; apply (concat_block (fun z => ds_t (fst z)) (fun z => l_yerr (fst (snd z)))); [intros z Hx; apply (LZ z Hx)|exact E3]|].
    rewrite (concat_block (fun z => ds_t (fst z)) (fun z => l_telvec (fst (snd z)))); [|intros z Hx; apply (LZ z Hx)|exact E3].
    cbn [fst snd]. rewrite P3. rewrite nth_error_map.
    destruct (nth_error (ds_t d) j) eqn:En; [reflexivity|]. apply nth_error_None in En. lia.
  Qed.
End Built.
