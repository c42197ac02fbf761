(** C55: a complete setup file with decorrelation is accepted, unless it declares a coefficient. *)
From Coq Require Import Reals String Ascii Arith Bool Lia Permutation List.
From Verif Require Import Py PyFloat PyFacts Params ParamsProofs ParamsSpec VectorProofs Basis BasisProofs RVModel Likelihood LikeBuild LikeMore LikeHist ExLike Gp Setup SetupSpec SetupProofs SetupThms VConv SetupHyper SetupMain SetupGpSpec.
Import ListNotations.
Open Scope string_scope.

(** ** building the array *)
Definition storable (h : heap) (d : dict nat) : Prop := forall k, In k (dkeys d) -> exists p b, get_param h d k = Some p /\ p_vary p = VBool b.

Lemma d2v_total h d idx ks : forall v, (forall k, In k ks -> exists p b, get_param h d k = Some p /\ p_vary p = VBool b) ->
  (forall k i, In k ks -> dget idx k = Some i -> (i < length v)%nat) ->
  exists v', for_each ks (dv_step h d idx) v = Ok v' /\ length v' = length v /\
    (forall i, (forall k, In k ks -> dget idx k <> Some i) -> nth_error v' i = nth_error v i) /\
    (forall k i p, In k ks -> dget idx k = Some i -> (forall k', In k' ks -> dget idx k' = Some i -> k' = k) -> get_param h d k = Some p ->
       exists row, nth_error v' i = Some row /\ r_val row = p_value p).
Proof.
  induction ks as [|a ks IH]; intros v S L.
  - exists v. cbn. repeat split; auto. intros k i p [].
  - cbn [for_each]. destruct (S a (or_introl eq_refl)) as (p & b & G & V).
    unfold dv_step at 1. destruct (dget idx a) as [i|] eqn:E.
    + rewrite G, V. pose proof (L a i (or_introl eq_refl) E) as Hi. destruct (Nat.ltb_spec i (length v)) as [_|Z]; [|lia]. cbn [bind].
      set (row := mkRow (p_value p) b (match p_scale p with None => Some 0%R | Some s => Some s end) (p_lin p)).
      destruct (IH (list_upd v i row)) as (v' & F & LV & O & W).
      { intros k K. apply S. now right. } { intros k j K D. rewrite length_list_upd. apply (L k j); [now right|exact D]. }
      rewrite length_list_upd in LV. exists v'. split; [exact F|]. split; [exact LV|]. split.
      * intros j N. rewrite O by (intros k K; apply N; now right). apply nth_list_upd_other. intros ->. exact (N a (or_introl eq_refl) E).
      * intros k j q K D U Gq. destruct (in_dec string_dec k ks) as [Kin|Kout].
        { apply (W k j q Kin D); [|exact Gq]. intros k' K' D'. apply U; [now right|exact D']. }
        destruct K as [<-|K]; [|contradiction]. assert (j = i) as -> by congruence. assert (q = p) as -> by congruence.
        rewrite O. { rewrite nth_list_upd_same by exact Hi. exists row. now split. }
        intros k K D'. assert (k = a) as -> by (apply U; [now right|exact D']). contradiction.
    + cbn [bind]. destruct (IH v) as (v' & F & LV & O & W).
      { intros k K. apply S. now right. } { intros k j K D. apply (L k j); [now right|exact D]. }
      exists v'. split; [exact F|]. split; [exact LV|]. split.
      * intros j N. apply O. intros k K. apply N. now right.
      * intros k j q [<-|K] D U Gq; [congruence|]. apply (W k j q K D); [|exact Gq]. intros k' K' D'. apply U; [now right|exact D'].
Qed.
Lemma d2v_beyond h d idx ks : forall v, (forall k, In k ks -> exists p b, get_param h d k = Some p /\ p_vary p = VBool b) ->
  (exists k i, In k ks /\ dget idx k = Some i /\ (length v <= i)%nat) -> for_each ks (dv_step h d idx) v = Err IndexError.
Proof.
  induction ks as [|a ks IH]; intros v S (k & i & K & D & L); [destruct K|]. cbn [for_each].
  destruct (S a (or_introl eq_refl)) as (p & b & G & V). unfold dv_step at 1. destruct (dget idx a) as [j|] eqn:E.
  - rewrite G, V. destruct (Nat.ltb_spec j (length v)) as [Hj|]; [|reflexivity]. cbn [bind]. apply IH; [intros; apply S; now right|].
    destruct K as [<-|K]; [assert (j = i) by congruence; lia|]. exists k, i. rewrite length_list_upd. auto.
  - cbn [bind]. apply IH; [intros; apply S; now right|]. destruct K as [<-|K]; [congruence|]. eauto.
Qed.
Lemma vn_total idx ks : forall nm, (forall k i, In k ks -> dget idx k = Some i -> (i < length nm)%nat) ->
  exists nm', for_each ks (vn_step idx) nm = Ok nm' /\ length nm' = length nm /\
    forall i s, nth_error nm' i = Some (Some s) -> nth_error nm i = Some (Some s) \/ In s ks /\ dget idx s = Some i.
Proof.
  induction ks as [|a ks IH]; intros nm L; [exists nm; cbn; auto|]. cbn [for_each]. unfold vn_step at 1. destruct (dget idx a) as [i|] eqn:E.
  - pose proof (L a i (or_introl eq_refl) E) as Hi. destruct (Nat.ltb_spec i (length nm)) as [_|Z]; [|lia]. cbn [bind].
    destruct (IH (list_upd nm i (Some a))) as (nm' & F & LN & W). { intros k j K D. rewrite length_list_upd. apply (L k j); [now right|exact D]. }
    rewrite length_list_upd in LN. exists nm'. split; [exact F|]. split; [exact LN|]. intros j s H. apply W in H as [H|[H D]]; [|right; split; [now right|exact D]].
    destruct (Nat.eq_dec j i) as [->|N]; [rewrite nth_list_upd_same in H by exact Hi; injection H as <-; right; split; [now left|exact E]|].
    rewrite nth_list_upd_other in H by auto. now left.
  - cbn [bind]. destruct (IH nm) as (nm' & F & LN & W). { intros k j K D. apply (L k j); [now right|exact D]. }
    exists nm'. split; [exact F|]. split; [exact LN|]. intros j s H. apply W in H as [H|[H D]]; [now left|right; split; [now right|exact D]].
Qed.

(** ** the invariant of the shared Parameters and Vector *)
Definition mine (k : string) : Prop := (exists s, k = "gamma_" ++ s) \/ (exists s, k = "jit_" ++ s) \/ exists s, k = "c1_" ++ s.
Lemma mine_inst k : mine k -> inst k = true.
Proof. intros [(s & ->)|[(s & ->)|(s & ->)]]; [reflexivity|reflexivity|apply inst_decorr]. Qed.
Lemma mine_not_trend k : mine k -> k <> "dvdt" /\ k <> "curv".
Proof. intros [(s & ->)|[(s & ->)|(s & ->)]]; split; discriminate. Qed.

Record good (num : nat) (h : heap) (d idx : dict nat) (n : nat) : Prop := {
  gd_idx : idx_ok num idx n;
  gd_n : n = rows_of d;
  gd_trend : forall k, (dget idx k = Some (5 * num)%nat -> k = "dvdt") /\ (dget idx k = Some (5 * num + 1)%nat -> k = "curv");
  gd_obj : storable h d;
  gd_nd : NoDup (dkeys d);
  gd_sync : forall k, mine k -> (In k (dkeys d) <-> exists i, dget idx k = Some i) }.

Lemma rows_grow d k l : mine k -> dmem d k = false -> rows_of (dset d k l) = S (rows_of d).
Proof.
  intros M E. apply mine_not_trend in M as [N1 N2]. unfold rows_of, n_missing, dmem. rewrite dkeys_dset. rewrite E.
  rewrite !dget_dset_other by auto. rewrite app_length. cbn. lia.
Qed.
Lemma get_new h d k p q k' : get_param h d k' = Some p -> dmem d k = false -> get_param (h ++ [q])%list (dset d k (length h)) k' = Some p.
Proof.
  intros G E. unfold get_param in *. unfold dmem in E. destruct (string_dec k' k) as [->|N]; [destruct (dget d k); discriminate|].
  rewrite dget_dset_other by auto. destruct (dget d k') as [l|]; [|discriminate]. rewrite nth_error_app1; [exact G|]. apply nth_error_Some. congruence.
Qed.
Lemma good_step num h d idx n k h' d' idx' n' : good num h d idx n -> mine k -> add_extra (h, d, idx, n) k = (h', d', idx', n') ->
  good num h' d' idx' n' /\ (forall k p, get_param h d k = Some p -> get_param h' d' k = Some p) /\ (forall k l, dget d k = Some l -> dget d' k = Some l) /\ idx_le idx idx' /\ In k (dkeys d').
Proof.
  intros G M E. destruct (add_extra_ok num _ _ _ _ _ _ _ _ _ (gd_idx _ _ _ _ _ G) E) as (A & B & C). unfold add_extra in E.
  pose proof (gd_sync _ _ _ _ _ G k M) as SY. destruct (dmem d k) eqn:ED.
  - assert (dmem idx k = true) as EI.
    { apply dmem_in in ED. apply SY in ED as (i & D). unfold dmem. now rewrite D. }
    rewrite EI in E. injection E as <- <- <- <-. split; [exact G|]. split; [auto|]. split; [auto|]. split; [exact B|]. now apply dmem_in.
  - assert (dmem idx k = false) as EI.
    { unfold dmem. destruct (dget idx k) as [i|] eqn:D; [|reflexivity]. assert (In k (dkeys d)) as K by (apply SY; eauto). apply dmem_in in K. congruence. }
    rewrite EI in E. unfold set_new in E. cbn [fst snd] in E. injection E as <- <- <- <-.
    assert (forall k0 p, get_param h d k0 = Some p -> get_param (h ++ [mkParam (Some 0%R) (VBool true) None false])%list (dset d k (length h)) k0 = Some p) as GK by (intros; now apply get_new).
    split; [|split; [exact GK|split; [|split; [exact B|apply dmem_in; unfold dmem; now rewrite dget_dset_same]]]].
    + split.
      * exact A.
      * rewrite rows_grow by auto. f_equal. apply G.
      * intro k0. pose proof (idx_ok_n _ _ _ (gd_idx _ _ _ _ _ G)) as HN. destruct (string_dec k0 k) as [->|N].
        { rewrite dget_dset_same. split; intro Q; injection Q; intros; lia. }
        rewrite dget_dset_other by auto. apply G.
      * intros k0 K0. rewrite dkeys_dset, ED in K0. apply in_app_or in K0 as [K0|[<-|[]]].
        { destruct (gd_obj _ _ _ _ _ G k0 K0) as (p & b & G0 & V). exists p, b. auto. }
        exists (mkParam (Some 0%R) (VBool true) None false), true. split; [|reflexivity]. unfold get_param. rewrite dget_dset_same, nth_error_app2 by lia. now rewrite Nat.sub_diag.
      *
        pose proof (wf_dset d k (length h) (gd_nd _ _ _ _ _ G)) as W. exact W.
      * intros k0 M0. destruct (string_dec k0 k) as [->|N].
        { rewrite dget_dset_same. rewrite dkeys_dset, ED. split; [eauto|]. intros _. apply in_or_app. right. now left. }
        rewrite dget_dset_other by auto. rewrite dkeys_dset, ED. rewrite <- (gd_sync _ _ _ _ _ G k0 M0). split; [|intro; apply in_or_app; now left].
        intro K0. apply in_app_or in K0 as [K0|[K0|[]]]; [exact K0|congruence].
    + intros k0 l D. destruct (string_dec k0 k) as [->|N]; [unfold dmem in ED; rewrite D in ED; discriminate|]. now rewrite dget_dset_other.
Qed.
Lemma good_fold num ks : forall h d idx n h' d' idx' n', good num h d idx n -> (forall k, In k ks -> mine k) -> fold_left add_extra ks (h, d, idx, n) = (h', d', idx', n') ->
  good num h' d' idx' n' /\ (forall k p, get_param h d k = Some p -> get_param h' d' k = Some p) /\ (forall k l, dget d k = Some l -> dget d' k = Some l) /\ idx_le idx idx' /\ forall k, In k ks -> In k (dkeys d').
Proof.
  induction ks as [|k ks IH]; intros h d idx n h' d' idx' n' G M E.
  - cbn in E. injection E as <- <- <- <-. split; [exact G|]. split; [auto|]. split; [auto|]. split; [intros ? ?; auto|intros k []].
  - cbn [fold_left] in E. destruct (add_extra (h, d, idx, n) k) as [[[h1 d1] idx1] n1] eqn:E1.
    destruct (good_step _ _ _ _ _ _ _ _ _ _ G (M k (or_introl eq_refl)) E1) as (G1 & A1 & B1 & C1 & D1).
    destruct (IH _ _ _ _ _ _ _ _ G1 (fun k' K => M k' (or_intror K)) E) as (G2 & A2 & B2 & C2 & D2).
    split; [exact G2|]. split; [auto|]. split; [auto|]. split; [intros k' i Hi; apply C2, C1; exact Hi|].
    intros k' [<-|K]; [|auto]. destruct (dget d1 k) as [l|] eqn:Q; [eapply dget_key, B2; exact Q|now apply dget_none in Q].
Qed.
(** both arrays can be built *)
Lemma good_builds num h d idx n : good num h d idx n -> exists v nm, dict_to_vector h d idx = Ok v /\ vector_names d idx = Ok nm /\ length v = n /\
  forall k i p, mine k -> In k (dkeys d) -> dget idx k = Some i -> get_param h d k = Some p -> exists row, nth_error v i = Some row /\ r_val row = p_value p.
Proof.
  intro G. unfold dict_to_vector.
  destruct (d2v_total h d idx (dkeys d) (repeat zero_row (length (dkeys d) + n_missing d)) (gd_obj _ _ _ _ _ G)) as (v & EV & LV & _ & W).
  { intros k i _ D. rewrite repeat_length. fold (rows_of d). rewrite <- (gd_n _ _ _ _ _ G). exact (io_lt _ _ _ (gd_idx _ _ _ _ _ G) k i D). }
  assert (rows_of d <= length (dkeys d) + 2)%nat as R2. { unfold rows_of, n_missing. destruct (dmem d "dvdt"), (dmem d "curv"); cbn; lia. }
  destruct (vn_total idx (dkeys d) (repeat None (length (dkeys d) + 2))) as (nm & EN & LN & X).
  { intros k i _ D. rewrite repeat_length. apply (io_lt _ _ _ (gd_idx _ _ _ _ _ G)) in D. rewrite (gd_n _ _ _ _ _ G) in D. lia. }
  rewrite repeat_length in LN. pose proof (gd_idx _ _ _ _ _ G) as I.
  assert (forall j s, nth_error nm j = Some (Some s) -> In s (dkeys d) /\ dget idx s = Some j) as X'.
  { intros j s H. apply X in H as [H|H]; [|exact H]. exfalso. apply nth_error_In, repeat_spec in H. discriminate. }
  assert (forall i k, dget idx k = Some i -> exists o, nth_error nm i = Some o) as NT.
  { intros i k D. destruct (nth_error nm i) eqn:E; [eauto|]. apply nth_error_None in E. apply (io_lt _ _ _ I) in D. rewrite (gd_n _ _ _ _ _ G) in D. lia. }
  assert (exists nm1, vn_extra d idx nm "dvdt" = Ok nm1 /\ (nm1 = nm \/ nm1 = list_upd nm (5 * num) (Some "dvdt"))) as (nm1 & E1 & N1).
  { unfold vn_extra. destruct (dmem d "dvdt") eqn:Q; [eauto|]. rewrite (io_dvdt _ _ _ I). destruct (NT _ _ (io_dvdt _ _ _ I)) as (o & EO). rewrite EO.
    destruct o as [s|]; [|eauto]. apply X' in EO as [K D]. apply (gd_trend _ _ _ _ _ G) in D. subst s. apply dmem_in in K. congruence. }
  assert (exists nm2, vn_extra d idx nm1 "curv" = Ok nm2) as (nm2 & E2).
  { unfold vn_extra. destruct (dmem d "curv") eqn:Q; [eauto|]. rewrite (io_curv _ _ _ I). destruct (NT _ _ (io_curv _ _ _ I)) as (o & EO).
    assert (nth_error nm1 (5 * num + 1) = Some o) as ->. { destruct N1 as [->| ->]; [exact EO|]. rewrite nth_list_upd_other by lia. exact EO. }
    destruct o as [s|]; [|eauto]. apply X' in EO as [K D]. apply (gd_trend _ _ _ _ _ G) in D. subst s. apply dmem_in in K. congruence. }
  exists v. eexists. split; [exact EV|]. split.
  - unfold vector_names. rewrite EN. cbn [bind for_each]. rewrite E1. cbn [bind]. rewrite E2. cbn [bind]. reflexivity.
  - split. { rewrite LV, repeat_length. symmetry. apply G. }
    intros k i p M K D P. apply (W k i p K D); [|exact P]. intros k' _ D'. apply (io_inj _ _ _ I k' k i); auto. apply (io_inst _ _ _ I k i); [now apply mine_inst|exact D].
Qed.

(** ** one likelihood *)
Definition coefficient (v nm : string) : string := "c1_" ++ v ++ "_" ++ nm.
Lemma keys_mine nm vars k : In k (app ["gamma_" ++ nm; "jit_" ++ nm] (map (fun v => coefficient v nm) vars)) -> mine k.
Proof.
  intro H. apply in_app_or in H as [[<-|[<-|[]]]|H]; [left; eauto|right; left; eauto|]. apply in_map_iff in H as (v & <- & _). right; right. unfold coefficient. eauto.
Qed.
Lemma rvlike_total num h ps vec t y e nm vars vecs : good num h (ps_items ps) (v_indices vec) (length (v_vector vec)) ->
  exists h1 ps1 vec1 l, rvlike_init h ps vec t y e ("_" ++ nm) vars vecs = Ok (h1, ps1, vec1, l) /\
    good num h1 (ps_items ps1) (v_indices vec1) (length (v_vector vec1)) /\ ps1 = with_items ps (ps_items ps1) /\
    dict_to_vector h1 (ps_items ps1) (v_indices vec1) = Ok (v_vector vec1) /\
    (forall k p, get_param h (ps_items ps) k = Some p -> get_param h1 (ps_items ps1) k = Some p) /\
    (forall k l, dget (ps_items ps) k = Some l -> dget (ps_items ps1) k = Some l) /\ idx_le (v_indices vec) (v_indices vec1) /\
    l_indices l = v_indices vec1 /\ l_gamma l = "gamma_" ++ nm.
Proof.
  intro G. unfold rvlike_init, likelihood_init. change ("gamma" ++ "_" ++ nm) with ("gamma_" ++ nm). change ("jit" ++ "_" ++ nm) with ("jit_" ++ nm).
  destruct (fold_left add_extra _ _) as [[[h1 d1] idx1] n1] eqn:EF.
  destruct (good_fold num _ _ _ _ _ _ _ _ _ G (keys_mine nm vars) EF) as (G1 & A & B & C & D).
  destruct (good_builds _ _ _ _ _ G1) as (v & nms & EV & EN & LV & _). rewrite EV. cbn [bind]. rewrite EN. cbn [bind v_indices].
  assert (forall k, mine k -> In k (dkeys d1) -> exists i, dget idx1 k = Some i) as IX by (intros k M K; now apply (gd_sync _ _ _ _ _ G1)).
  destruct (IX ("gamma_" ++ nm)) as (gi & Eg); [left; eauto|apply D; now left|].
  destruct (IX ("jit_" ++ nm)) as (ji & Ej); [right; left; eauto|apply D; right; now left|].
  unfold dget_res. rewrite Eg. cbn [bind]. rewrite Ej. cbn [bind]. do 4 eexists. split; [reflexivity|].
  cbn [ps_items v_indices v_vector l_indices l_gamma]. rewrite LV. split; [exact G1|]. split; [reflexivity|]. split; [exact EV|]. auto.
Qed.
Lemma vectors_total rows vars : (forall o v, In o rows -> In v vars -> In v (dkeys (o_cols o))) -> exists vecs, decorr_vectors rows vars = Ok vecs.
Proof.
  intro H. unfold decorr_vectors. generalize (@nil (string * list R)) as acc. induction vars as [|v vars IH]; intro acc; [cbn; eauto|]. cbn [for_each].
  assert (exists col, map_res (fun o => dget_res (o_cols o) v) rows = Ok col) as (col & ->).
  { clear IH. induction rows as [|o rows IHr]; [cbn; eauto|]. cbn [map_res]. unfold dget_res at 1.
    destruct (dget (o_cols o) v) as [x|] eqn:E. 2:{ apply dget_none in E. destruct E. apply H; now left. }
    cbn [bind]. destruct IHr as (c & ->); [intros o' v' O V; apply H; [now right|exact V]|]. cbn. eauto. }
  cbn [bind]. apply IH. intros o v' O V. apply H; [exact O|now right].
Qed.

Section Loop.
  Variable argsort : list R -> list nat.
  Variables (P : setup) (vars : list string) (ip : params) (d0 : dict nat) (h0 : heap) (num : nat).
  Hypothesis HN : P_hnames P = None.
  Definition like_fits (h : heap) (d idx : dict nat) (l : rvlike) : Prop :=
    exists i p x, dget (l_indices l) (l_gamma l) = Some i /\ dget idx (l_gamma l) = Some i /\ mine (l_gamma l) /\
      get_param h d (l_gamma l) = Some p /\ p_value p = Some x.
  Lemma loop_decorr : forall nms h ps vec likes,
    good num h (ps_items ps) (v_indices vec) (length (v_vector vec)) -> dict_to_vector h (ps_items ps) (v_indices vec) = Ok (v_vector vec) ->
    (forall k p, get_param h0 d0 k = Some p -> get_param h (ps_items ps) k = Some p) -> (forall k l, dget d0 k = Some l -> dget (ps_items ps) k = Some l) ->
    (forall nm, In nm nms -> rows_for (P_data P) nm <> [] /\ (forall o v, In o (rows_for (P_data P) nm) -> In v vars -> In v (dkeys (o_cols o))) /\
       (exists p x, get_param h0 d0 ("gamma_" ++ nm) = Some p /\ p_value p = Some x) /\ (exists l, dget d0 ("jit_" ++ nm) = Some l) /\
       dget (ps_items ip) ("gamma_" ++ nm) = dget d0 ("gamma_" ++ nm) /\ dget (ps_items ip) ("jit_" ++ nm) = dget d0 ("jit_" ++ nm)) ->
    (forall x, In x likes -> like_fits h (ps_items ps) (v_indices vec) (snd (snd x))) ->
    exists b, for_each nms (add_inst argsort P true vars ip) (mkBuilding h ps vec likes) = Ok b /\
      good num (bl_heap b) (ps_items (bl_params b)) (v_indices (bl_vector b)) (length (v_vector (bl_vector b))) /\
      dict_to_vector (bl_heap b) (ps_items (bl_params b)) (v_indices (bl_vector b)) = Ok (v_vector (bl_vector b)) /\
      (forall x, In x (bl_likes b) -> like_fits (bl_heap b) (ps_items (bl_params b)) (v_indices (bl_vector b)) (snd (snd x))) /\
      (nms <> [] \/ likes <> [] -> bl_likes b <> []).
  Proof.
    induction nms as [|nm nms IH]; intros h ps vec likes G EV KP KD H HL.
    - eexists. cbn. split; [reflexivity|]. cbn. split; [exact G|]. split; [exact EV|]. split; [exact HL|]. intros [|]; congruence.
    - destruct (H nm (or_introl eq_refl)) as (R & CO & (p & x & Gp & Px) & (lj & Dj) & Eg & Ej).
      cbn [for_each]. unfold add_inst at 1. destruct (rows_for (P_data P) nm) as [|o rr] eqn:ER; [congruence|]. rewrite <- ER in *. clear R.
      destruct (vectors_total _ _ CO) as (vecs & ->). cbn [bind]. unfold choose_type. rewrite HN. cbn [bind make_like bl_heap bl_params bl_vector].
      destruct (rvlike_total num h ps vec (map o_time (rows_for (P_data P) nm)) (map o_vel (rows_for (P_data P) nm)) (map o_err (rows_for (P_data P) nm)) nm vars vecs G)
        as (h1 & ps1 & vec1 & l & -> & G1 & PS1 & EV1 & A & B & C & LI & LG). cbn [bind].
      assert (exists lg, dget d0 ("gamma_" ++ nm) = Some lg) as (lg & Dg) by (unfold get_param in Gp; destruct (dget d0 ("gamma_" ++ nm)); [eauto|discriminate]).
      unfold set_item, dget_res. rewrite Eg, Dg. cbn [bind]. rewrite (dset_same_value (ps_items ps1) _ lg) by auto. rewrite Ej, Dj. cbn [bind].
      assert (with_items ps1 (ps_items ps1) = ps1) as W by (destruct ps1; reflexivity). rewrite W.
      rewrite (dset_same_value (ps_items ps1) _ lj) by auto. rewrite W.
      destruct (IH h1 ps1 vec1 (dset likes nm (RVLike, l)) G1 EV1) as (b & E & Q1 & Q2 & Q3 & Q4).
      + intros k q K. apply A, KP, K.
      + intros k q K. apply B, KD, K.
      + intros; apply H; now right.
      + intros z Hz. assert (forall d : dict (liketype * rvlike), In z (dset d nm (RVLike, l)) -> In z d \/ z = (nm, (RVLike, l))) as QQ.
        { induction d as [|[k' v'] d IHd]; cbn; [intros [|[]]; auto|]. destruct (String.eqb_spec nm k') as [->|].
          - cbn. intros [|]; auto. - cbn. intros [|Hd]; auto. destruct (IHd Hd); auto. }
        apply QQ in Hz. destruct Hz as [Hz|Hz].
        * destruct (HL z Hz) as (i & q & y & I1 & I2 & I3 & I4 & I5). exists i, q, y. split; [exact I1|]. split; [now apply C|]. auto.
        * subst z. cbn [snd]. assert (mine ("gamma_" ++ nm)) as M by (left; eauto).
          assert (exists i, dget (v_indices vec1) ("gamma_" ++ nm) = Some i) as (i & Di).
          { apply (gd_sync _ _ _ _ _ G1 _ M). eapply dget_key, B, KD. exact Dg. }
          exists i, p, x. rewrite LI, LG. split; [exact Di|]. split; [exact Di|]. split; [exact M|]. split; [apply A, KP, Gp|exact Px].
      + exists b. split; [exact E|]. split; [exact Q1|]. split; [exact Q2|]. split; [exact Q3|].
        intros _. apply Q4. right. destruct likes as [|[k' v'] ?]; cbn; [discriminate|]. destruct (String.eqb nm k'); discriminate.
  Qed.
End Loop.


Section Start.
  Variables (P : setup) (h : heap) (vars : list string).
  Hypotheses (K : params_ok h (P_params P)) (EB : b_name (ps_basis (P_params P)) = P_fitting_basis P)
    (NL : forall k, In k (dkeys (ps_items (P_params P))) -> ~ logjit_key k) (ST : storable h (ps_items (P_params P)))
    (HN : P_hnames P = None) (HV : P_decorr_vars P = Some vars).
  Let d := ps_items (P_params P).
  Lemma started : exists h1 ip v nm0, copy_params h (P_params P) = (h1, ip) /\
    (forall k p, get_param h d k = Some p -> get_param h1 d k = Some p) /\ storable h1 d /\ (forall k l, dget d k = Some l -> dget (ps_items ip) k = Some l) /\
    let idx := init_index_dict (ps_num (P_params P)) (dkeys d) in
    dict_to_vector h1 d idx = Ok v /\ vector_names d idx = Ok nm0 /\ length v = rows_of d /\ idx_ok (ps_num (P_params P)) idx (length v) /\ NoDup (dkeys d) /\
    (forall argsort, initialize_posterior argsort P true h =
      (do b <- for_each (P_instnames P) (add_inst argsort P true vars ip) (mkBuilding h1 (P_params P) (mkVector idx v nm0) []);
      do c <- composite_init (bl_heap b) (v_vector (bl_vector b)) (map (fun x => mkCM (snd (snd x)) (ps_items (bl_params b)) 0) (bl_likes b));
      do v <- dict_to_vector (bl_heap b) (ps_items (bl_params b)) (v_indices (bl_vector b));
      Ok (mkInit (bl_heap b) (bl_params b) (mkVector (v_indices (bl_vector b)) v (v_names (bl_vector b))) (bl_likes b) c))).
  Proof.
    destruct (copy_params h (P_params P)) as [h1 ip] eqn:EC. exists h1, ip.
    pose proof (copy_facts _ _ _ _ K EC) as [[t X] Y]. destruct K as [[names L] O].
    destruct (copy_params_spec _ _ _ _ EC (locs_of _ _ O) (o_wf _ _ O)) as (_ & _ & _ & _ & _ & _ & _ & _ & _ & KK & _).
    assert (forall k p, get_param h d k = Some p -> get_param h1 d k = Some p) as GP.
    { intros k p G. unfold get_param in *. destruct (dget d k) as [l|]; [|discriminate]. rewrite X, nth_error_app1; auto. apply nth_error_Some. congruence. }
    assert (storable h1 d) as S1. { intros k Hk. destruct (ST k Hk) as (p & b & G & V). exists p, b. auto. }
    destruct (d2v _ _ _ _ _ L S1) as (v & EV & LV & _). destruct (names_ok _ _ _ _ L) as (nm0 & EN & _). exists v, nm0.
    split; [reflexivity|]. split; [exact GP|]. split; [exact S1|]. split; [exact KK|]. cbv zeta. split; [exact EV|]. split; [exact EN|].
    assert (length v = rows_of d) as LR. { unfold dict_to_vector in EV. apply d2v_range in EV as [E _]. rewrite E, repeat_length. reflexivity. }
    split; [exact LR|]. split. { rewrite LR. exact (init_idx_ok _ _ _ _ L). } split; [exact (l_nodup _ _ _ _ L)|].
    intro argsort. unfold initialize_posterior. rewrite EB, String.eqb_refl, HV. cbn [negb bind]. rewrite loop_none by auto. cbn [bind].
    assert (with_items (P_params P) (ps_items (P_params P)) = P_params P) as -> by (destruct (P_params P); reflexivity). rewrite EC.
    unfold rvmodel_init, vector_init. unfold d in EV, EN. rewrite EV. cbn [bind]. rewrite EN. cbn [bind m_vector]. reflexivity.
  Qed.
End Start.

Section Complete.
  Variable argsort : list R -> list nat.
  Lemma complete_decorr P h vars : params_ok h (P_params P) -> b_name (ps_basis (P_params P)) = P_fitting_basis P ->
    (forall k, In k (dkeys (ps_items (P_params P))) -> ~ logjit_key k) ->
    (forall k, In k (dkeys (ps_items (P_params P))) -> exists p b, get_param h (ps_items (P_params P)) k = Some p /\ p_vary p = VBool b) ->
    P_hnames P = None -> P_decorr_vars P = Some vars -> P_instnames P <> [] ->
    (forall s, ~ In ("c1_" ++ s) (dkeys (ps_items (P_params P)))) ->
    (forall nm, In nm (P_instnames P) -> has_rows P nm /\ has_columns P vars nm /\ In ("jit_" ++ nm) (dkeys (ps_items (P_params P))) /\
       exists p x, get_param h (ps_items (P_params P)) ("gamma_" ++ nm) = Some p /\ p_value p = Some x) ->
    exists r, initialize_posterior argsort P true h = Ok r.
  Proof.
    intros K EB NL ST HN HV NE ND HI. destruct (started P h vars K EB NL ST HV) as (h1 & ip & v & nm0 & EC & GP & S1 & KK & EV & EN & LR & IO & NDK & ->).
    set (d := ps_items (P_params P)) in *. set (idx := init_index_dict (ps_num (P_params P)) (dkeys d)) in *. set (num := ps_num (P_params P)) in *.
    assert (good num h1 d idx (length v)) as G.
    { split; auto.
      - intro k. split; intro D; apply index_inv in D; auto.
        + remember (5 * num)%nat as j. destruct D as [n p Hn Hp| | |k He Hin]; try lia; try reflexivity. pose proof (column_lt p). lia.
        + remember (5 * num + 1)%nat as j. destruct D as [n p Hn Hp| | |k He Hin]; try lia; try reflexivity. pose proof (column_lt p). lia.
      - intros k M. split.
        + intro Hk. destruct M as [(s & ->)|[(s & ->)|(s & ->)]]; [| |now apply ND in Hk]; unfold idx; rewrite (index_extra _ _ _ NDK Hk) by reflexivity; eauto.
        + intros (i & D). apply mine_inst in M. apply index_inv in D; auto. destruct D as [n p Hn Hp| | |k He Hin]; try discriminate; [|exact Hin].
          rewrite inst_planet in M by auto. discriminate. }
    destruct (loop_decorr argsort P vars ip d h1 num HN (P_instnames P) h1 (P_params P) (mkVector idx v nm0) []) as (b & EF & G1 & EV1 & HL & NL'); auto.
    { intros nm Hn. destruct (HI nm Hn) as ((o & Ho & Et) & CO & Kj & p & x & Gp & Px).
      assert (exists l, dget d ("gamma_" ++ nm) = Some l) as (lg & Dg) by (unfold get_param in Gp; fold d in Gp; destruct (dget d ("gamma_" ++ nm)); [eauto|discriminate]).
      assert (exists l, dget d ("jit_" ++ nm) = Some l) as (lj & Dj). { destruct (dget d ("jit_" ++ nm)) eqn:E; [eauto|now apply dget_none in E]. }
      split. { intro Z. assert (In o (rows_for (P_data P) nm)) as Hr by (apply rows_in; auto). rewrite Z in Hr. destruct Hr. }
      split. { intros o' v' O' V'. apply rows_in in O' as [O1 O2]. now apply CO. }
      split; [eauto|]. split; [eauto|]. rewrite Dg, Dj. auto. }
    { intros x []. }
    rewrite EF. cbn [bind].
    destruct (composite_same (bl_heap b) (v_vector (bl_vector b)) (ps_items (bl_params b)) 0%nat (map (fun x => mkCM (snd (snd x)) (ps_items (bl_params b)) 0) (bl_likes b))) as [c ->].
    { destruct (bl_likes b); [|discriminate]. exfalso. apply NL'; auto. }
    { intros k Hk. destruct (gd_obj _ _ _ _ _ G1 k Hk) as (p & bb & Gk & _). eauto. }
    { intros m Hm. apply in_map_iff in Hm. destruct Hm as (x & <- & Hx). cbn [c_items c_vector_id c_like]. split; [reflexivity|]. split; [reflexivity|].
      destruct (HL x Hx) as (i & p & y & I1 & I2 & I3 & I4 & I5). exists i, y. split; [exact I1|].
      destruct (good_builds _ _ _ _ _ G1) as (v' & ? & EV' & _ & _ & W). assert (v' = v_vector (bl_vector b)) as -> by congruence.
      assert (In (l_gamma (snd (snd x))) (dkeys (ps_items (bl_params b)))) as Kin by (apply (gd_sync _ _ _ _ _ G1 _ I3); eauto).
      destruct (W _ i p I3 Kin I2 I4) as (row & Nr & Vr). unfold vget. rewrite Nr, Vr, I5. reflexivity. }
    cbn [bind]. rewrite EV1. cbn [bind]. eauto.
  Qed.
End Complete.

(** ** a coefficient that is declared *)
Lemma counter ks : forall h d idx n h' d' idx' n', fold_left add_extra ks (h, d, idx, n) = (h', d', idx', n') ->
  (forall k, In k ks -> mine k) -> storable h d -> (forall k i, In k ks -> dget idx k = Some i -> In k (dkeys d)) -> (rows_of d <= n)%nat ->
  storable h' d' /\ (rows_of d' <= n')%nat /\ (n <= n')%nat /\ (forall k i, dget idx k = Some i -> dget idx' k = Some i) /\
  (forall k, In k (dkeys d) \/ In k ks -> In k (dkeys d')) /\
  ((rows_of d < n)%nat \/ (exists k, In k ks /\ In k (dkeys d) /\ dget idx k = None) -> (rows_of d' < n')%nat) /\
  (n' = n \/ exists k, In k ks /\ dget idx' k = Some (n' - 1)%nat).
Proof.
  induction ks as [|k ks IH]; intros h d idx n h' d' idx' n' E M S Y L.
  - cbn in E. injection E as <- <- <- <-. split; [exact S|]. split; [exact L|]. split; [lia|]. split; [auto|]. split; [intros k [K|[]]; exact K|].
    split; [intros [Q|(k & [] & _)]; exact Q|now left].
  - cbn [fold_left] in E. destruct (add_extra (h, d, idx, n) k) as [[[h1 d1] idx1] n1] eqn:E1. unfold add_extra in E1. pose proof (M k (or_introl eq_refl)) as Mk.
    assert (storable h1 d1 /\ (forall k', In k' (dkeys d) \/ k' = k -> In k' (dkeys d1)) /\ (dmem d k = true -> d1 = d) /\ (dmem d k = false -> rows_of d1 = Datatypes.S (rows_of d)) /\
      (dmem idx k = true -> idx1 = idx /\ n1 = n) /\ (dmem idx k = false -> idx1 = dset idx k n /\ n1 = Datatypes.S n)) as (S1 & KD & DT & DF & IT & IF).
    { destruct (dmem d k) eqn:ED.
      - assert (h1 = h /\ d1 = d) as [-> ->] by (destruct (dmem idx k); injection E1 as <- <- _ _; auto).
        split; [exact S|]. split; [intros k' [K'| ->]; [exact K'|now apply dmem_in]|]. split; [auto|]. split; [discriminate|].
        destruct (dmem idx k); injection E1 as <- <-; split; auto; discriminate.
      - unfold set_new in E1. cbn [fst snd] in E1.
        assert (h1 = (h ++ [mkParam (Some 0%R) (VBool true) None false])%list /\ d1 = dset d k (length h)) as [-> ->] by (destruct (dmem idx k); injection E1 as <- <- _ _; auto).
        split; [|split; [|split; [discriminate|split; [intros _; now apply rows_grow|]]]].
        + intros k0 K0. rewrite dkeys_dset, ED in K0. apply in_app_or in K0 as [K0|[<-|[]]].
          { destruct (S k0 K0) as (p & b & G0 & V). exists p, b. split; [now apply get_new|exact V]. }
          exists (mkParam (Some 0%R) (VBool true) None false), true. split; [|reflexivity]. unfold get_param. rewrite dget_dset_same, nth_error_app2 by lia. now rewrite Nat.sub_diag.
        + intros k' [K'| ->]; rewrite dkeys_dset, ED; apply in_or_app; [now left|right; now left].
        + destruct (dmem idx k); injection E1 as <- <-; split; auto; discriminate. }
    destruct (dmem idx k) eqn:EI.
    + destruct (IT eq_refl) as [-> ->]. assert (dmem d k = true) as ED. { unfold dmem in EI. destruct (dget idx k) as [i|] eqn:Q; [|discriminate]. apply dmem_in. apply (Y k i (or_introl eq_refl) Q). }
      rewrite (DT ED) in *. destruct (IH _ _ _ _ _ _ _ _ E (fun k' K => M k' (or_intror K)) S1 (fun k' i K => Y k' i (or_intror K)) L) as (A1 & A2 & A3 & A4 & A5 & A6 & A7).
      split; [exact A1|]. split; [exact A2|]. split; [exact A3|]. split; [exact A4|]. split.
      { intros k' [K'|[<-|K']]; apply A5; [now left|left; now apply dmem_in|now right]. }
      split.
      * intros [Q|(k0 & [<-|K0] & K1 & K2)]; apply A6; [now left| |right; eauto]. unfold dmem in EI. rewrite K2 in EI. discriminate.
      * destruct A7 as [Q|(k0 & K0 & Q)]; [now left|right; exists k0; split; [now right|exact Q]].
    + destruct (IF eq_refl) as [-> ->].
      assert (rows_of d1 <= Datatypes.S n)%nat as L1. { destruct (dmem d k) eqn:ED; [rewrite (DT eq_refl); lia|rewrite (DF eq_refl); lia]. }
      assert (dget idx k = None) as NI. { unfold dmem in EI. destruct (dget idx k); [discriminate|reflexivity]. }
      destruct (IH _ _ _ _ _ _ _ _ E (fun k' K => M k' (or_intror K)) S1) as (A1 & A2 & A3 & A4 & A5 & A6 & A7); [|exact L1|].
      { intros k' i K' D. destruct (string_dec k' k) as [->|N]; [apply KD; now right|]. rewrite dget_dset_other in D by exact N. apply KD. left. apply (Y k' i); [now right|exact D]. }
      split; [exact A1|]. split; [exact A2|]. split; [lia|]. split.
      { intros k' i D. apply A4. destruct (string_dec k' k) as [->|N]; [congruence|]. now rewrite dget_dset_other. }
      split. { intros k' [K'|[<-|K']]; apply A5; [left; apply KD; now left|left; apply KD; now right|now right]. }
      split.
      * intro Q. apply A6. destruct (dmem d k) eqn:ED.
        { left. rewrite (DT eq_refl). lia. }
        destruct Q as [Q|(k0 & K0 & K1 & K2)]; [left; rewrite (DF eq_refl); lia|].
        assert (k0 <> k) as N. { intros ->. apply dmem_in in K1. congruence. }
        right. exists k0. destruct K0 as [K0|K0]; [congruence|]. split; [exact K0|]. split; [apply KD; now left|]. now rewrite dget_dset_other.
      * destruct A7 as [Q|(k0 & K0 & Q)]; [|right; exists k0; split; [now right|exact Q]].
        right. exists k. split; [now left|]. rewrite Q. cbn. rewrite Nat.sub_0_r. apply A4. apply dget_dset_same.
Qed.
Lemma declared argsort P h vars nm rest v : params_ok h (P_params P) -> b_name (ps_basis (P_params P)) = P_fitting_basis P ->
  (forall k, In k (dkeys (ps_items (P_params P))) -> ~ logjit_key k) ->
  (forall k, In k (dkeys (ps_items (P_params P))) -> exists p b, get_param h (ps_items (P_params P)) k = Some p /\ p_vary p = VBool b) ->
  P_hnames P = None -> P_decorr_vars P = Some vars -> P_instnames P = nm :: rest -> has_rows P nm -> has_columns P vars nm ->
  In v vars -> In ("c1_" ++ v ++ "_" ++ nm) (dkeys (ps_items (P_params P))) ->
  initialize_posterior argsort P true h = Err IndexError.
Proof.
  intros K EB NL ST HN HV EI (o & Ho & Et) CO Iv Kc. destruct (started P h vars K EB NL ST HV) as (h1 & ip & w & nm0 & EC & GP & S1 & KK & EV & EN & LR & IO & NDK & ->).
  set (d := ps_items (P_params P)) in *. set (idx := init_index_dict (ps_num (P_params P)) (dkeys d)) in *.
  rewrite EI. cbn [for_each]. unfold add_inst at 1.
  assert (In o (rows_for (P_data P) nm)) as Hr by (apply rows_in; auto). destruct (rows_for (P_data P) nm) as [|o1 rr] eqn:ER; [destruct Hr|]. rewrite <- ER in *.
  destruct (vectors_total (rows_for (P_data P) nm) vars) as (vecs & ->). { intros o' v' O' V'. apply rows_in in O' as [O1 O2]. now apply CO. }
  cbn [bind]. unfold choose_type. rewrite HN. cbn [bind make_like bl_heap bl_params bl_vector].
  unfold rvlike_init, likelihood_init. cbn [v_indices v_vector]. change ("gamma" ++ "_" ++ nm) with ("gamma_" ++ nm). change ("jit" ++ "_" ++ nm) with ("jit_" ++ nm).
  destruct (fold_left add_extra _ _) as [[[h2 d2] idx2] n2] eqn:EF.
  destruct (counter _ _ _ _ _ _ _ _ _ EF (keys_mine nm vars) S1) as (A1 & A2 & A3 & A4 & A5 & A6 & A7).
  { intros k i Hk D. apply keys_mine in Hk. apply mine_inst in Hk. unfold idx in D. apply index_inv in D; auto. destruct D as [n p Hn Hp| | |k He Hin]; try discriminate; [|exact Hin].
    rewrite inst_planet in Hk by auto. discriminate. }
  { rewrite LR. apply le_n. }
  assert (rows_of d2 < n2)%nat as LT.
  { apply A6. right. exists (coefficient v nm). split; [apply in_or_app; right; exact (in_map (fun v => coefficient v nm) vars v Iv)|]. split; [exact Kc|].
    destruct (dget idx (coefficient v nm)) as [i|] eqn:D; [|reflexivity]. exfalso. unfold idx in D. apply index_inv in D; auto.
    assert (forall k i, index_case (ps_num (P_params P)) (dkeys d) k i -> forall s, k <> "c1_" ++ s) as NC.
    { intros k j C s EQ. destruct C as [n p Hn Hp| | |k He Hin]; try discriminate.
      - pose proof (inst_planet p n Hp) as IP. rewrite EQ in IP. rewrite inst_decorr in IP. discriminate.
      - subst k. discriminate. }
    exact (NC _ _ D _ eq_refl). }
  unfold dict_to_vector. rewrite d2v_beyond; [reflexivity|exact A1|]. fold (rows_of d2). rewrite repeat_length. destruct A7 as [Q|(k & Hk & Q)]; [|exists k, (n2 - 1)%nat; split; [apply A5; now right|split; [exact Q|fold (rows_of d2); lia]]].
  exfalso. assert (length w = rows_of d) by exact LR.
  assert (rows_of d <= rows_of d2)%nat by (destruct (add_extra_dict _ _ _ _ _ _ _ _ _ EF) as (Z & _); exact Z). lia.
Qed.

(** ** decorrelation beside Gaussian processes *)
Lemma ignored argsort P h vars : P_hnames P <> None -> P_decorr_vars P = Some vars -> (forall nm, In nm (P_instnames P) -> has_columns P vars nm) ->
  initialize_posterior argsort P true h = initialize_posterior argsort P false h.
Proof.
  intros HN HV CO. unfold initialize_posterior. rewrite HV. destruct (negb _); [reflexivity|]. cbn [bind]. destruct (logjit_loop _ _ _ _) as [[h0 d]|e]; [|reflexivity]. cbn [bind].
  destruct (copy_params h0 _) as [h1 ip]. destruct (rvmodel_init _ _ _) as [m|e]; [|reflexivity]. cbn [bind].
  assert (forall l b, (forall nm, In nm l -> has_columns P vars nm) -> for_each l (add_inst argsort P true vars ip) b = for_each l (add_inst argsort P false [] ip) b) as ->; [|reflexivity|exact CO].
  clear CO. intros l b CO. apply for_each_ext'. intros s nm Hn. unfold add_inst. destruct (rows_for (P_data P) nm) as [|o rr] eqn:ER; [reflexivity|]. rewrite <- ER.
  destruct (vectors_total (rows_for (P_data P) nm) vars) as (vecs & ->). { intros o' v' O' V'. apply rows_in in O' as [O1 O2]. now apply (CO nm Hn). }
  cbn [bind]. unfold choose_type. destruct (P_hnames P) as [hn|]; [|congruence]. destruct (dget_res hn nm) as [names|e]; [|reflexivity]. cbn [bind].
  destruct (P_kernel_name P) as [kn|]; [|reflexivity]. destruct (dget_res kn nm) as [k|e]; [|reflexivity]. cbn [bind]. now destruct (String.eqb k "Celerite").
Qed.
