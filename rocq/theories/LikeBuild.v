(** C17, C18: likelihoods as built by RVLikelihood.__init__ on a fresh Vector. *)
From Coq Require Import Reals String Ascii ZArith Arith Bool Lia Lra List.
From Verif Require Import Py PyFloat PyFacts PyFloatFacts Params ParamsProofs ParamsSpec VectorProofs Kepler Basis RVModel Likelihood LikeSpec LikeProofs LikeHist.
Import ListNotations.
Open Scope R_scope.

(** instrument keys: first letter g or j, or a decorrelation coefficient *)
Definition inst (k : string) : bool :=
  String.prefix "g" k || String.prefix "j" k || String.prefix "c1_" k.

Lemma inst_gamma s : inst ("gamma" ++ s) = true. Proof. reflexivity. Qed.
Lemma inst_jit s : inst ("jit" ++ s) = true. Proof. reflexivity. Qed.
Lemma inst_decorr s : inst ("c1_" ++ s) = true.
Proof. unfold inst. cbn. now destruct s. Qed.

Lemma inst_planet p n : In p PNAMES -> inst (key p n) = false.
Proof. unfold PNAMES, key. intro H. repeat (destruct H as [<-|H]; [reflexivity|]). destruct H. Qed.

(** index dictionary of [num] planets with all rows below [n] *)
Record idx_ok (num : nat) (idx : dict nat) (n : nat) : Prop := {
  io_inj : forall k k' i, (5 * num + 2 <= i)%nat -> dget idx k = Some i -> dget idx k' = Some i -> k = k';
  io_inst : forall k i, inst k = true -> dget idx k = Some i -> (5 * num + 2 <= i)%nat;
  io_lt : forall k i, dget idx k = Some i -> (i < n)%nat;
  io_dvdt : dget idx "dvdt" = Some (5 * num)%nat;
  io_curv : dget idx "curv" = Some (5 * num + 1)%nat }.

Lemma idx_ok_n num idx n : idx_ok num idx n -> (5 * num + 2 <= n)%nat.
Proof. intro H. pose proof (io_lt _ _ _ H _ _ (io_curv _ _ _ H)). lia. Qed.

Lemma rank_inj k k' l : In k l -> In k' l -> rank k l = rank k' l -> k = k'.
Proof.
  induction l as [|a l IH]; cbn; [easy|]. intros H H'.
  destruct (String.eqb_spec k a) as [->|N], (String.eqb_spec k' a) as [->|N']; intro E; auto; try discriminate.
  destruct H; [congruence|]. destruct H'; [congruence|]. apply IH; auto.
Qed.

Lemma init_idx_ok num b names (d : dict nat) : layout num b names (dkeys d) ->
  idx_ok num (init_index_dict num (dkeys d)) (length (dkeys d) + n_missing d).
Proof.
  intro L. pose proof (l_nodup _ _ _ _ L) as ND. split.
  - intros k k' i Hi H H'. apply index_inv in H, H'; auto.
    destruct H as [n p Hn Hp| | |k He Hin]; try lia.
    { pose proof (column_lt p). lia. }
    remember (5 * num + 2 + rank k (filter is_extra (dkeys d)))%nat as j.
    destruct H' as [n p Hn Hp| | |k' He' Hin']; try lia.
    { pose proof (column_lt p). lia. }
    apply (rank_inj k k' (filter is_extra (dkeys d))); try (apply filter_In; auto). lia.
  - intros k i Hk H. apply index_inv in H; auto.
    destruct H as [n p Hn Hp| | |k He Hin]; try discriminate; try lia.
    rewrite inst_planet in Hk by auto. discriminate.
  - intros k i H. apply (index_range _ _ _ _ _ _ L) in H. pose proof (rows_enough _ _ _ _ L). lia.
  - rewrite index_dvdt. f_equal; lia.
  - rewrite index_curv. f_equal; lia.
Qed.

(** a likelihood refers to its own rows of the shared array *)
Record like_ok (num : nat) (idx : dict nat) (l : rvlike) : Prop := {
  lo_gamma : exists s, l_gamma l = ("gamma" ++ s)%string;
  lo_jit : exists s, l_jit l = ("jit" ++ s)%string;
  lo_gidx : dget idx (l_gamma l) = Some (l_gidx l);
  lo_jidx : dget idx (l_jit l) = Some (l_jidx l);
  lo_decorr : forall k, In k (l_decorr l) -> exists s, k = ("c1_" ++ s)%string;
  lo_idx : forall k i, dget (l_indices l) k = Some i -> dget idx k = Some i }.

Definition idx_le (a b : dict nat) : Prop := forall k i, dget a k = Some i -> dget b k = Some i.

Lemma add_extra_ok num h d idx n k h' d' idx' n' : idx_ok num idx n -> add_extra (h, d, idx, n) k = (h', d', idx', n') ->
  idx_ok num idx' n' /\ idx_le idx idx' /\ (exists i, dget idx' k = Some i).
Proof.
  intros H E. unfold add_extra in E.
  destruct (if dmem d k then (h, d) else set_new (h, d) k (mkParam (Some 0) (VBool true) None false)) as [h1 d1].
  unfold dmem in E. destruct (dget idx k) as [i|] eqn:Ek.
  - inversion E; subst. split; auto. split; [intros ? ?; auto|eauto].
  - inversion E; subst. pose proof (idx_ok_n _ _ _ H) as HN.
    assert (forall k' i, dget (dset idx k n) k' = Some i -> k' = k /\ i = n \/ dget idx k' = Some i) as Q.
    { intros k' i Hi. destruct (String.eqb_spec k' k) as [->|N].
      - rewrite dget_dset_same in Hi. left. split; congruence.
      - rewrite dget_dset_other in Hi by auto. auto. }
    split; [split|split].
    + intros k1 k2 i Hi H1 H2. apply Q in H1, H2. destruct H1 as [[-> ->]|H1], H2 as [[-> E2]|H2]; auto.
      * apply (io_lt _ _ _ H) in H2. lia.
      * subst. apply (io_lt _ _ _ H) in H1. lia.
      * apply (io_inj _ _ _ H k1 k2 i); auto.
    + intros k1 i Hk Hi. apply Q in Hi. destruct Hi as [[-> ->]|Hi]; auto. now apply (io_inst _ _ _ H k1).
    + intros k1 i Hi. apply Q in Hi. destruct Hi as [[-> ->]|Hi]; [lia|]. apply (io_lt _ _ _ H) in Hi. lia.
    + destruct (String.eqb_spec "dvdt" k) as [<-|N]; [rewrite (io_dvdt _ _ _ H) in Ek; discriminate|].
      rewrite dget_dset_other by auto. apply (io_dvdt _ _ _ H).
    + destruct (String.eqb_spec "curv" k) as [<-|N]; [rewrite (io_curv _ _ _ H) in Ek; discriminate|].
      rewrite dget_dset_other by auto. apply (io_curv _ _ _ H).
    + intros k' i Hi. destruct (String.eqb_spec k' k) as [->|N]; [congruence|]. now rewrite dget_dset_other.
    + exists n. apply dget_dset_same.
Qed.

Lemma add_extras_ok num ks : forall st st', idx_ok num (snd (fst st)) (snd st) ->
  fold_left add_extra ks st = st' ->
  idx_ok num (snd (fst st')) (snd st') /\ idx_le (snd (fst st)) (snd (fst st')) /\
  forall k, In k ks -> exists i, dget (snd (fst st')) k = Some i.
Proof.
  induction ks as [|k ks IH]; intros st st' H E.
  - cbn in E. subst. split; auto. split; [intros ? ?; auto|intros k []].
  - cbn in E. destruct st as [[[h d] idx] n]. destruct (add_extra (h, d, idx, n) k) as [[[h1 d1] idx1] n1] eqn:E1.
    destruct (add_extra_ok num _ _ _ _ _ _ _ _ _ H E1) as (A & B & C).
    destruct (IH (h1, d1, idx1, n1) st' A E) as (A' & B' & C'). split; auto. split.
    + intros k' i Hi. apply B', B. exact Hi.
    + intros k' [<-|Hk]; auto. destruct C as [i Hi]. exists i. now apply B'.
Qed.

(** rows of the array built from a dictionary *)
Definition rows_of (d : dict nat) : nat := (length (dkeys d) + n_missing d)%nat.

Lemma rows_of_set d k l : (rows_of d <= rows_of (dset d k l))%nat.
Proof.
  unfold rows_of, n_missing, dmem. rewrite dkeys_dset. unfold dmem.
  assert (forall k', dget (dset d k l) k' = if String.eqb k' k then Some l else dget d k') as Q.
  { intro k'. destruct (String.eqb_spec k' k) as [->|N]; [apply dget_dset_same|now apply dget_dset_other]. }
  rewrite !Q. destruct (String.eqb_spec "dvdt" k) as [E1|N1], (String.eqb_spec "curv" k) as [E2|N2]; [subst k; discriminate|subst k|subst k|];
    repeat match goal with |- context [dget d ?x] => destruct (dget d x) end; rewrite ?app_length; cbn; lia.
Qed.

Lemma add_extra_dict ks : forall h d idx n h' d' idx' n',
  fold_left add_extra ks (h, d, idx, n) = (h', d', idx', n') ->
  (rows_of d <= rows_of d')%nat /\ (forall k, In k (dkeys d) -> In k (dkeys d')) /\ (forall k, In k ks -> In k (dkeys d')) /\
  (forall k i, dget idx' k = Some i -> dget idx k = Some i \/ In k ks).
Proof.
  induction ks as [|k ks IH]; intros h d idx n h' d' idx' n' E.
  - cbn in E. inversion E; subst. split; [lia|]. split; [auto|]. split; [intros k []|auto].
  - cbn [fold_left] in E. destruct (add_extra (h, d, idx, n) k) as [[[h1 d1] idx1] n1] eqn:E1.
    destruct (IH _ _ _ _ _ _ _ _ E) as (A & B & C & D).
    unfold add_extra in E1.
    assert (d1 = (if dmem d k then d else dset d k (length h))) as Ed.
    { destruct (dmem d k); unfold set_new in E1; cbn [fst snd] in E1; destruct (dmem idx k); congruence. }
    assert (idx1 = if dmem idx k then idx else dset idx k n) as Ei.
    { destruct (dmem d k); unfold set_new in E1; cbn [fst snd] in E1; destruct (dmem idx k); congruence. }
    assert (rows_of d <= rows_of d1 /\ In k (dkeys d1) /\ forall k', In k' (dkeys d) -> In k' (dkeys d1))%nat as (R & K & S).
    { subst d1. destruct (dmem d k) eqn:EM.
      - split; auto. split; auto. now apply dmem_in.
      - split; [apply rows_of_set|]. rewrite dkeys_dset, EM. split.
        + apply in_or_app. right. now left.
        + intros k' Hk'. apply in_or_app. now left. }
    split; [lia|]. split; [auto|]. split; [intros k' [<-|Hk]; auto|].
    intros k' i Hi. apply D in Hi. destruct Hi as [Hi|Hi]; [|right; now right].
    subst idx1. destruct (dmem idx k) eqn:EM; auto.
    destruct (String.eqb_spec k' k) as [->|N]; [right; now left|].
    rewrite dget_dset_other in Hi by auto. auto.
Qed.

(** dict_to_vector returns only when every index of a key is a row *)
Lemma d2v_range h d idx ks : forall v v', for_each ks (dv_step h d idx) v = Ok v' ->
  length v' = length v /\ forall k i, In k ks -> dget idx k = Some i -> (i < length v)%nat.
Proof.
  induction ks as [|k ks IH]; intros v v' H; cbn [for_each] in H.
  - inversion H; subst. split; auto. intros k i [].
  - destruct (dv_step h d idx v k) as [v1|] eqn:E; [|discriminate]. cbn [bind] in H.
    destruct (IH _ _ H) as [A B]. unfold dv_step in E.
    destruct (dget idx k) as [i|] eqn:Ei.
    + destruct (get_param h d k) as [q|]; [|discriminate]. destruct (Nat.ltb_spec i (length v)) as [Hi|]; [|discriminate].
      destruct (p_vary q); [|discriminate]. inversion E; subst v1. rewrite length_list_upd in *.
      split; auto. intros k' i' [<-|Hk] Hi'; [|eapply B; eauto]. congruence.
    + inversion E; subst v1. split; auto. intros k' i' [<-|Hk] Hi'; [congruence|eapply B; eauto].
Qed.

(** the shared Vector is in step with the dictionary *)
Definition in_step (num : nat) (ps : params) (vec : vector) : Prop :=
  idx_ok num (v_indices vec) (length (v_vector vec)) /\ length (v_vector vec) = rows_of (ps_items ps).

Lemma rvlike_init_ok num h ps vec t y yerr suffix dvars dvecs h1 ps1 vec1 l :
  in_step num ps vec ->
  rvlike_init h ps vec t y yerr suffix dvars dvecs = Ok (h1, ps1, vec1, l) ->
  in_step num ps1 vec1 /\ idx_le (v_indices vec) (v_indices vec1) /\
  like_ok num (v_indices vec1) l /\ l_x l = t /\ l_y l = y /\ l_yerr l = yerr /\
  l_gamma l = ("gamma" ++ suffix)%string /\ l_jit l = ("jit" ++ suffix)%string /\ length (l_telvec l) = length t.
Proof.
  intros [H HR] E. unfold rvlike_init, likelihood_init in E.
  destruct (fold_left add_extra _ _) as [[[h2 d2] idx2] n2] eqn:EF.
  destruct (add_extras_ok num _ (h, ps_items ps, v_indices vec, length (v_vector vec)) _ H EF) as (A & B & C). cbn [fst snd] in A, B, C.
  destruct (add_extra_dict _ _ _ _ _ _ _ _ _ EF) as (D1 & D2 & D3 & D4).
  destruct (dict_to_vector h2 d2 idx2) as [v|] eqn:EV; [|discriminate]. cbn [bind] in E.
  destruct (vector_names d2 idx2) as [nm|]; [|discriminate]. cbn [bind v_indices] in E.
  unfold dget_res in E.
  destruct (dget idx2 ("gamma" ++ suffix)) as [gi|] eqn:Eg; [|discriminate]. cbn [bind] in E.
  destruct (dget idx2 ("jit" ++ suffix)) as [ji|] eqn:Ej; [|discriminate]. cbn [bind] in E.
  inversion E; subst; clear E. cbn [v_indices v_vector ps_items].
  unfold dict_to_vector in EV. destruct (d2v_range _ _ _ _ _ _ EV) as [LV RV].
  rewrite repeat_length in LV, RV. fold (rows_of d2) in LV, RV.
  split; [split; [|auto]|].
  { cbn [v_indices v_vector]. rewrite LV. split; try apply A.
    intros k i Hi. destruct (D4 k i Hi) as [Ho|Hk].
    - apply (io_lt _ _ _ H) in Ho. lia.
    - apply (RV k i); auto. }
  split; auto.
  split; [|cbn; rewrite map_length; repeat split; auto].
  split; cbn [l_gamma l_jit l_gidx l_jidx l_decorr l_indices]; eauto; try (eexists; reflexivity).
  intros k Hk. apply in_map_iff in Hk. destruct Hk as (d & <- & _). eexists. reflexivity.
Qed.

(** building several likelihoods one after the other on the same model *)
Record dataset := mkData { ds_t : list R; ds_y : list R; ds_err : list R; ds_suffix : string;
                           ds_dvars : list string; ds_dvecs : dict (list R) }.
Fixpoint build_likes (h : heap) (ps : params) (vec : vector) (ds : list dataset)
  : res (heap * params * vector * list rvlike) :=
  match ds with
  | [] => Ok (h, ps, vec, [])
  | x :: r =>
      do (h1, ps1, vec1, l) <- rvlike_init h ps vec (ds_t x) (ds_y x) (ds_err x) (ds_suffix x) (ds_dvars x) (ds_dvecs x);
      do (h2, ps2, vec2, ls) <- build_likes h1 ps1 vec1 r;
      Ok (h2, ps2, vec2, l :: ls)
  end.

Lemma like_ok_le num idx idx' l : like_ok num idx l -> idx_le idx idx' -> like_ok num idx' l.
Proof. intros [A B C D E F] H. split; auto. Qed.

Lemma like_gidx num idx n l : idx_ok num idx n -> like_ok num idx l -> (5 * num + 2 <= l_gidx l)%nat.
Proof.
  intros H K. destruct (lo_gamma _ _ _ K) as [s Hs]. apply (io_inst _ _ _ H (l_gamma l)).
  - rewrite Hs. reflexivity.
  - apply (lo_gidx _ _ _ K).
Qed.

Lemma build_likes_ok num ds : forall h ps vec h1 ps1 vec1 ls, in_step num ps vec ->
  build_likes h ps vec ds = Ok (h1, ps1, vec1, ls) ->
  in_step num ps1 vec1 /\ idx_le (v_indices vec) (v_indices vec1) /\ (forall l, In l ls -> like_ok num (v_indices vec1) l) /\
  ps_basis ps1 = ps_basis ps /\ ps_num ps1 = ps_num ps.
Proof.
  induction ds as [|x ds IH]; intros h ps vec h1 ps1 vec1 ls HI E; cbn [build_likes] in E.
  - inversion E; subst. split; auto. split; [intros ? ?; auto|]. split; [intros l []|auto].
  - destruct (rvlike_init _ _ _ _ _ _ _ _ _) as [[[[h2 ps2] vec2] l]|] eqn:E1; [|discriminate]. cbn [bind] in E.
    destruct (build_likes h2 ps2 vec2 ds) as [[[[h3 ps3] vec3] ls']|] eqn:E2; [|discriminate]. cbn [bind] in E.
    inversion E; subst. destruct (rvlike_init_ok _ _ _ _ _ _ _ _ _ _ _ _ _ _ HI E1) as (A & B & C & _).
    destruct (IH _ _ _ _ _ _ _ A E2) as (A' & B' & C' & D' & E').
    assert (ps_basis ps2 = ps_basis ps /\ ps_num ps2 = ps_num ps) as [P1 P2].
    { unfold rvlike_init, likelihood_init in E1. destruct (fold_left _ _ _) as [[[? ?] ?] ?].
      destruct (dict_to_vector _ _ _); [|discriminate]. cbn [bind] in E1.
      destruct (vector_names _ _); [|discriminate]. cbn [bind] in E1.
      destruct (dget_res _ _); [|discriminate]. cbn [bind] in E1. destruct (dget_res _ _); [|discriminate]. cbn [bind] in E1.
      inversion E1; subst. auto. }
    split; auto. split; [intros k i Hk; auto|]. split; [|split; congruence].
    intros l' [<-|Hl]; auto. eapply like_ok_le; eauto.
Qed.

Lemma vector_init_in_step h ps b names vec : layout (ps_num ps) b names (dkeys (ps_items ps)) ->
  vector_init h ps = Ok vec -> in_step (ps_num ps) ps vec.
Proof.
  intros L E. unfold vector_init in E. destruct (dict_to_vector _ _ _) as [v|] eqn:EV; [|discriminate]. cbn [bind] in E.
  destruct (vector_names _ _) as [nm|]; [|discriminate]. cbn [bind] in E. inversion E; subst.
  unfold dict_to_vector in EV. destruct (d2v_range _ _ _ _ _ _ EV) as [LV _]. rewrite repeat_length in LV.
  split; cbn [v_indices v_vector]; auto. rewrite LV. eapply init_idx_ok; eauto.
Qed.

(** a row of a gamma parameter holds no jitter and no decorrelation coefficient *)
Lemma likes_separate num idx n ls v0 : idx_ok num idx n -> (forall l, In l ls -> like_ok num idx l) ->
  forall l, In l ls -> separate ls v0 l.
Proof.
  intros H K l Hl. split.
  - intros (l' & g & Hl' & E & _). pose proof (K l Hl) as L. pose proof (K l' Hl') as L'.
    destruct (lo_gamma _ _ _ L') as [s Hs], (lo_jit _ _ _ L) as [s' Hs'].
    assert (l_jit l = l_gamma l').
    { apply (io_inj _ _ _ H _ _ (l_gidx l') (like_gidx _ _ _ _ H L')); [rewrite <- E; apply (lo_jidx _ _ _ L)|apply (lo_gidx _ _ _ L')]. }
    rewrite Hs, Hs' in *. discriminate.
  - intros k i Hk Hi (l' & g & Hl' & E & _). subst i. pose proof (K l Hl) as L. pose proof (K l' Hl') as L'.
    destruct (lo_gamma _ _ _ L') as [s Hs], (lo_decorr _ _ _ L k Hk) as [s' Hs'].
    assert (k = l_gamma l').
    { apply (io_inj _ _ _ H _ _ (l_gidx l') (like_gidx _ _ _ _ H L')); [apply (lo_idx _ _ _ L); auto|apply (lo_gidx _ _ _ L')]. }
    rewrite Hs in *. subst. discriminate.
Qed.

(** C18 for one likelihood and for a composite of any number of them *)
Theorem built_history use_c fuel ps names tb idx n ls v0 c0 cs vals :
  b_num (ps_basis ps) = ps_num ps -> idx_ok (ps_num ps) idx n -> (forall l, In l ls -> like_ok (ps_num ps) idx l) ->
  cache_fresh c0 v0 ->
  let fwd := rv_forward use_c fuel ps idx names tb in
  let ms := map (rv_member fwd) ls in
  snd (logprob_array (comp_logprob ms) (run (comp_logprob ms) (comp_residuals ms) (v0, c0) cs) vals) =
  snd (logprob_array (comp_logprob ms) (v0, c0) vals) /\
  forall l, In l ls ->
    snd (logprob_array (rv_logprob fwd l) (run (rv_logprob fwd l) (rv_residuals fwd l) (v0, c0) cs) vals) =
    snd (logprob_array (rv_logprob fwd l) (v0, c0) vals).
Proof.
  intros HN HI HL HC fwd ms.
  assert (fwd_blind ls v0 fwd) as FB.
  { apply rv_forward_blind; auto.
    - intros i Hi. rewrite (io_dvdt _ _ _ HI) in Hi. inversion Hi. lia.
    - intros i Hi. rewrite (io_curv _ _ _ HI) in Hi. inversion Hi. lia.
    - intros l Hl. apply (like_gidx _ _ _ _ HI). auto. }
  split.
  - apply comp_history; auto. now apply (likes_separate (ps_num ps) idx n).
  - intros l Hl. apply (rv_history ls v0 fwd FB); auto. apply (likes_separate (ps_num ps) idx n); auto.
Qed.

(** the same from the constructors: RVModel's Vector, then any likelihoods on it *)
Theorem constructed_history h ps b names vec ds h1 ps1 vec1 ls use_c fuel tb c0 cs vals :
  layout (ps_num ps) b names (dkeys (ps_items ps)) -> b_num (ps_basis ps) = ps_num ps ->
  vector_init h ps = Ok vec -> build_likes h ps vec ds = Ok (h1, ps1, vec1, ls) ->
  let v0 := v_vector vec1 in
  cache_fresh c0 v0 ->
  let fwd := rv_forward use_c fuel ps1 (v_indices vec1) (v_names vec1) tb in
  let ms := map (rv_member fwd) ls in
  snd (logprob_array (comp_logprob ms) (run (comp_logprob ms) (comp_residuals ms) (v0, c0) cs) vals) =
  snd (logprob_array (comp_logprob ms) (v0, c0) vals) /\
  forall l, In l ls ->
    snd (logprob_array (rv_logprob fwd l) (run (rv_logprob fwd l) (rv_residuals fwd l) (v0, c0) cs) vals) =
    snd (logprob_array (rv_logprob fwd l) (v0, c0) vals).
Proof.
  intros L HN EV EB v0 HC. pose proof (vector_init_in_step _ _ _ _ _ L EV) as HI.
  destruct (build_likes_ok _ _ _ _ _ _ _ _ _ HI EB) as ((A & _) & _ & C & D & E).
  apply (built_history _ _ _ _ _ _ (length (v_vector vec1))); auto; rewrite E; auto. now rewrite D.
Qed.

(** C17 with fast=False: the values also reach the Parameter objects *)
Lemma set_slow num b names ps h v cache vals idx :
  layout num b names (dkeys (ps_items ps)) -> objects_ok h (ps_items ps) -> idx = init_index_dict num (dkeys (ps_items ps)) ->
  (5 * num + 2 + length (filter is_extra (dkeys (ps_items ps))) <= length v)%nat ->
  cache_fresh cache v -> length vals = n_free v ->
  exists v' c' h', set_vary_params_slow ps idx h cache v vals = (v', c', Ok h') /\
    get_vary_params c' v' = (c', Ok vals) /\ agree (is_free v) v v' /\ length h' = length h /\
    (forall k p, get_param h (ps_items ps) k = Some p ->
       get_param h' (ps_items ps) k = Some (match dget idx k with
                                | Some i => mkParam (match nth_error v' i with
                                                     | Some r => r_val r | None => p_value p end)
                                                    (p_vary p) (p_scale p) (p_lin p)
                                | None => p end)).
Proof.
  intros L O -> HR HC HV. destruct (set_get v cache vals HC HV) as (v' & c' & E & G & A).
  destruct (vd_main num b names h (ps_items ps) v' L O) as (h' & E' & L' & P & _).
  { rewrite <- (proj1 A). auto. }
  exists v', c', h'. unfold set_vary_params_slow. rewrite E. cbn [bind]. rewrite E'.
  split; [auto|]. split; [auto|]. split; [exact A|]. split; auto.
Qed.
