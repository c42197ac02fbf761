(** C76: what the array of a plotted fit holds, and what the model and the residuals computed from it are. *)
From Coq Require Import Reals String ZArith Arith Bool Lia Lra List.
From Verif Require Import Py PyFloat PyFacts PyFloatFacts Params ParamsProofs ParamsSpec VectorProofs Kepler Basis BasisProofs BasisConv BasisThms BasisModel VConv RVModel RVModelProofs ModelThms Likelihood LikeSpec LikeProofs LikeHist LikeBuild LikeAlign Panels PanelSpec PanelProofs.
Import ListNotations.
Open Scope R_scope.

(** ** Likelihoods as built *)
Lemma rvlike_facts num h ps vec t y yerr suffix dvars dvecs h1 ps1 vec1 l : in_step num ps vec ->
  rvlike_init h ps vec t y yerr suffix dvars dvecs = Ok (h1, ps1, vec1, l) ->
  (forall k i, dget (v_indices vec1) k = Some i -> dget (v_indices vec) k = Some i \/ (5 * num + 2 <= i)%nat) /\
  (forall k, In k (dkeys (ps_items ps)) -> In k (dkeys (ps_items ps1))) /\
  In ("gamma" ++ suffix)%string (dkeys (ps_items ps1)) /\ In ("jit" ++ suffix)%string (dkeys (ps_items ps1)) /\
  l_suffix l = strip_us suffix /\ (dvars = [] -> l_decorr l = []).
Proof.
  intros HI E. destruct (rvlike_init_ok _ _ _ _ _ _ _ _ _ _ _ _ _ _ HI E) as ((A & _) & _). unfold rvlike_init, likelihood_init in E.
  destruct (fold_left add_extra _ _) as [[[h2 d2] idx2] n2] eqn:EF.
  destruct (add_extra_dict _ _ _ _ _ _ _ _ _ EF) as (D1 & D2 & D3 & D4).
  destruct (dict_to_vector h2 d2 idx2) as [v|] eqn:EV; [|discriminate]. cbn [bind] in E.
  destruct (vector_names d2 idx2) as [nm|]; [|discriminate]. cbn [bind v_indices] in E.
  destruct (dget_res _ _) as [gi|]; [|discriminate]. cbn [bind] in E. destruct (dget_res _ _) as [ji|]; [|discriminate]. cbn [bind] in E.
  inversion E; subst; clear E. cbn [v_indices ps_items l_suffix l_decorr] in *.
  split.
  { intros k i Hi. destruct (D4 k i Hi) as [Ho|Hk]; [now left|right]. apply (io_inst _ _ _ A k); auto.
    destruct Hk as [<-|[<-|Hk]]; [reflexivity|reflexivity|]. apply in_map_iff in Hk as (d & <- & _). apply inst_decorr. }
  split; [auto|]. split; [apply D3; now left|]. split; [apply D3; right; now left|]. split; [reflexivity|]. intros ->. reflexivity.
Qed.

Definition built_from (num : nat) (idx : dict nat) (keys : list string) (d : dataset) (l : rvlike) : Prop :=
  l_x l = ds_t d /\ l_y l = ds_y d /\ l_yerr l = ds_err d /\ l_telvec l = map (fun _ => strip_us (ds_suffix d)) (ds_t d) /\
  l_gamma l = ("gamma" ++ ds_suffix d)%string /\ l_jit l = ("jit" ++ ds_suffix d)%string /\
  In (l_gamma l) keys /\ In (l_jit l) keys /\ l_suffix l = strip_us (ds_suffix d) /\ (ds_dvars d = [] -> l_decorr l = []) /\ like_ok num idx l.
Lemma build_facts num ds : forall h ps vec h1 ps1 vec1 ls, in_step num ps vec -> build_likes h ps vec ds = Ok (h1, ps1, vec1, ls) ->
  (forall k i, dget (v_indices vec1) k = Some i -> dget (v_indices vec) k = Some i \/ (5 * num + 2 <= i)%nat) /\
  (forall k, In k (dkeys (ps_items ps)) -> In k (dkeys (ps_items ps1))) /\
  Forall2 (built_from num (v_indices vec1) (dkeys (ps_items ps1))) ds ls.
Proof.
  induction ds as [|d ds IH]; intros h ps vec h1 ps1 vec1 ls HI E; pose proof E as E0; cbn [build_likes] in E.
  - injection E as <- <- <- <-. split; [auto|]. split; [auto|constructor].
  - destruct (rvlike_init _ _ _ _ _ _ _ _ _) as [[[[h2 ps2] vec2] l]|] eqn:E1; [|discriminate]. cbn [bind] in E.
    destruct (build_likes h2 ps2 vec2 ds) as [[[[h3 ps3] vec3] ls']|] eqn:E2; [|discriminate]. cbn [bind] in E. injection E as <- <- <- <-.
    pose proof (build_likes_tel _ _ _ _ _ _ _ _ E0) as T. inversion T as [|? ? ? ? (T1 & T2 & T3 & T4) T5]; subst.
    destruct (rvlike_init_ok _ _ _ _ _ _ _ _ _ _ _ _ _ _ HI E1) as (A & B & C & _ & _ & _ & G & J & _).
    destruct (rvlike_facts _ _ _ _ _ _ _ _ _ _ _ _ _ _ HI E1) as (F1 & F2 & F3 & F4 & F5 & F6).
    destruct (IH _ _ _ _ _ _ _ A E2) as (I1 & I2 & I3). destruct (build_likes_ok _ _ _ _ _ _ _ _ _ A E2) as (_ & LE & _).
    split. { intros k i Hi. destruct (I1 k i Hi) as [H|H]; auto. }
    split; [auto|]. constructor; [|exact I3]. rewrite <- G in F3. rewrite <- J in F4.
    unfold built_from. split; [exact T1|]. split; [exact T2|]. split; [exact T3|]. split; [exact T4|]. split; [exact G|]. split; [exact J|].
    split; [auto|]. split; [auto|]. split; [exact F5|]. split; [exact F6|]. eapply like_ok_le; eauto.
Qed.

(** ** Corrections *)
Lemma map2_map2 (r c x : list R) (f : R -> R) : length c = length r ->
  map2 (fun a b => a - f b) (map2 Rminus r c) x = map2 Rminus (map2 (fun a _ => a) r x) (map2 (fun c b => c + f b) c x).
Proof.
  revert c x. induction r as [|a r IH]; intros [|b c] [|d x] L; try discriminate; cbn; auto. f_equal; [lra|]. apply IH. cbn in L. lia.
Qed.
Lemma map2_fst (r x : list R) : length x = length r -> map2 (fun a _ => a) r x = r.
Proof. revert x. induction r as [|a r IH]; intros [|d x] L; try discriminate; cbn; auto. f_equal. apply IH. cbn in L. lia. Qed.
Lemma map2_length (f : R -> R -> R) a : forall b, length a = length b -> length (map2 f a b) = length a.
Proof. induction a as [|x a IH]; intros [|y b] L; try discriminate; cbn in *; [reflexivity|]. rewrite IH by lia. reflexivity. Qed.
Lemma decorr_corr l v ks : forall r r', for_each ks (fun r p => decorr_step l v r p) r = Ok r' ->
  exists c, length c = length r /\ r' = map2 Rminus r c /\ (ks = [] -> c = repeat 0 (length r)).
Proof.
  assert (forall ks r c r', length c = length r -> for_each ks (fun r p => decorr_step l v r p) (map2 Rminus r c) = Ok r' ->
    exists c', length c' = length r /\ r' = map2 Rminus r c' /\ (ks = [] -> c' = c)) as Q.
  { clear ks. induction ks as [|k ks IH]; cbn [for_each]; intros r c r' L H.
    - injection H as <-. exists c. auto.
    - destruct (decorr_step l v (map2 Rminus r c) k) as [r1|] eqn:E; [|discriminate]. cbn [bind] in H. unfold decorr_step in E.
      destruct (nth_error (split_us k "") 1); [|discriminate]. destruct (map_res _ _) as [pars|]; [|discriminate]. cbn in E.
      destruct (dget_res _ _) as [vec|]; [|discriminate]. cbn in E. destruct (Nat.eqb_spec (length vec) (length (map2 Rminus r c))) as [LV|]; [|discriminate].
      rewrite map2_length in LV by auto. rewrite (map2_map2 r c vec (fun x => poly1d (pars ++ [0]) (x - mean vec))), map2_fst in E by auto. injection E as <-.
      eapply IH in H; [|rewrite map2_length; lia]. destruct H as (c' & L' & E' & _). exists c'. split; auto. split; auto. discriminate. }
  intros r r' H. destruct (Q ks r (repeat 0 (length r)) r') as (c & A & B & C); [apply repeat_length| |eauto].
  replace (map2 Rminus r (repeat 0 (length r))) with r; [exact H|]. clear. induction r as [|a r IH]; cbn; auto. f_equal; [lra|auto].
Qed.

Lemma Forall2_in_r {A B} (P : A -> B -> Prop) l l' y : Forall2 P l l' -> In y l' -> exists x, In x l /\ P x y.
Proof. induction 1 as [|a c l l' H F IH]; intro Hy; [destruct Hy|]. destruct Hy as [<-|Hy]; [exists a; cbn; auto|]. destruct (IH Hy) as (x & A1 & A2). exists x. cbn. auto. Qed.
Lemma Forall2_nth {A B} (P : A -> B -> Prop) l l' : Forall2 P l l' -> forall k x y, nth_error l k = Some x -> nth_error l' k = Some y -> P x y.
Proof. induction 1 as [|a c l l' H F IH]; intros [|k] x y E1 E2; try discriminate; cbn in *; [congruence|eauto]. Qed.
Definition curve_of (use_c : bool) (fuel : nat) (el : elements) (t : R) : R :=
  match rv_drive use_c fuel [t] (orb el) with Ok x => nth 0 (npelems x) 0 | Err _ => 0 end.
Lemma curve_moves use_c fuel el ts c i t : rv_drive use_c fuel ts (orb el) = Ok c -> nth_error ts i = Some t ->
  moves use_c fuel el t (curve_of use_c fuel el t) /\ nth_error (npelems c) i = Some (curve_of use_c fuel el t).
Proof.
  intros H Hi. destruct (rv_drive_single _ _ _ _ _ _ _ H Hi) as (x & y & A & B & C). unfold curve_of, moves. rewrite A, B. cbn. split; [|exact C].
  exists x. auto.
Qed.
Lemma sum_at_map (cs : list (list R)) (f : nat -> R) (ns : list nat) i : length cs = length ns ->
  (forall j n c, nth_error ns j = Some n -> nth_error cs j = Some c -> nth_error c i = Some (f n)) -> sum_at cs i = rsum (map f ns).
Proof.
  revert ns. induction cs as [|c cs IH]; intros [|n ns] L H; try discriminate; [reflexivity|]. cbn [sum_at fold_right map]. rewrite rsum_cons.
  rewrite (nth_error_nth _ _ 0 (H 0%nat n c eq_refl eq_refl)). f_equal. apply (IH ns); [cbn in L; lia|]. intros j. exact (H (S j)).
Qed.

Section Fit.
  Variables (use_c : bool) (fuel : nat).
  Variables (q : fitted) (ds : list dataset) (b : string) (names : list string) (E : nat -> elements).
  Hypothesis FO : fit_of q ds b names E.
  Let num := ps_num (q_params q).
  Let E1 n := els b (meaning (E n)).
  Let fwd := q_fwd use_c fuel q.
  Let idx := v_indices (q_vec q).
  Let keys := dkeys (ps_items (q_params q)).

  Lemma fit_facts : In (b, names) FIT_BASES /\ (exists n, idx_ok num idx n) /\
    (forall n p, (1 <= n <= num)%nat -> In p PNAMES -> dget idx (key p n) = Some (5 * (n - 1) + column p)%nat) /\
    (forall k i, dget idx k = Some i -> (i < 5 * num)%nat -> exists n p, (1 <= n <= num)%nat /\ In p PNAMES /\ k = key p n /\ i = (5 * (n - 1) + column p)%nat) /\
    (forall k i, dget idx k = Some i -> (i = 5 * num)%nat -> k = "dvdt"%string) /\
    (forall k i, dget idx k = Some i -> (i = 5 * num + 1)%nat -> k = "curv"%string) /\
    Forall2 (built_from num idx keys) ds (q_likes q) /\
    (forall v, fwd_blind (q_likes q) v fwd /\ forall l, In l (q_likes q) -> separate (q_likes q) v l) /\
    b_num (ps_basis (q_params q)) = num.
  Proof.
    destruct FO as [(h & ps & vec & h1 & vec1 & L & BN & EV & EB & EI) OK ST HE]. unfold num, idx, keys. rewrite EI.
    pose proof (vector_init_in_step _ _ _ _ _ L EV) as HI.
    destruct (build_likes_ok _ _ _ _ _ _ _ _ _ HI EB) as ((A & _) & LE & C & PB & PN).
    destruct (build_facts _ _ _ _ _ _ _ _ _ HI EB) as (F1 & F2 & F3). rewrite <- PN in *.
    assert (v_indices vec = init_index_dict (ps_num (q_params q)) (dkeys (ps_items ps))) as VI.
    { unfold vector_init in EV. destruct (dict_to_vector _ _ _); [|discriminate]. cbn [bind] in EV. destruct (vector_names _ _); [|discriminate]. cbn [bind] in EV.
      injection EV as <-. cbn. now rewrite PN. }
    split; [apply L|]. split; [eauto|]. split.
    { intros n p Hn Hp. apply LE. rewrite VI. now apply index_planet. }
    assert (forall k i, dget (v_indices vec1) k = Some i -> (i < 5 * ps_num (q_params q) + 2)%nat -> index_case (ps_num (q_params q)) (dkeys (ps_items ps)) k i) as IC.
    { intros k i Hi Hlt. destruct (F1 k i Hi) as [H|H]; [|lia]. rewrite VI in H. apply index_inv in H; [exact H|apply L]. }
    split.
    { intros k i Hi Hlt. apply IC in Hi; [|lia]. inversion Hi; subst; try lia. eauto 10. }
    split.
    { intros k i Hi Hlt. apply IC in Hi; [|lia]. inversion Hi; subst; auto; try lia. pose proof (column_lt p). lia. }
    split.
    { intros k i Hi Hlt. apply IC in Hi; [|lia]. inversion Hi; subst; auto; try lia. pose proof (column_lt p). lia. }
    split; [exact F3|]. split; [|apply OK].
    intro v. rewrite PN in *. unfold fwd, q_fwd. rewrite EI. split.
    - unfold fwd_blind. intros u w t SH AG.
      destruct (built_setting h ps b names vec ds h1 (q_params q) vec1 (q_likes q) use_c fuel (q_tb q) v L BN EV EB) as [FB _].
      specialize (FB u w t SH AG). exact FB.
    - destruct (built_setting h ps b names vec ds h1 (q_params q) vec1 (q_likes q) use_c fuel (q_tb q) v L BN EV EB) as [_ SE]. exact SE.
  Qed.

  (** ** after the conversion *)
  Lemma synth_facts h sp : to_synth (q_heap q) (ps_basis (q_params q)) (q_params q) false None = Ok (h, sp) ->
    (exists t, h = (q_heap q ++ t)%list) /\
    (forall n, (1 <= n <= num)%nat -> recovered names (E n) (E1 n) /\ holds h sp SYNTH n (meaning (E1 n))) /\
    (forall k, non_orbital num k -> value_at h sp k = value_at (q_heap q) (q_params q) k) /\
    (forall n, (1 <= n <= num)%nat -> In "tc"%string names -> value_at h sp (key "tc" n) = Some (meaning (E n) "tc")) /\
    (forall n, (1 <= n <= num)%nat -> ~ In "tc"%string names -> ~ In (key "tc" n) (dkeys (ps_items sp))).
  Proof.
    intro H. destruct FO as [_ OK ST HE]. pose proof (po_fit _ _ _ _ OK) as HB.
    destruct (to_synth_main (q_heap q) (q_params q) b names false (fun n => meaning (E n)) E1 OK) as (h' & out & R1 & R2 & (t & R3) & R4 & R5 & R6 & R7 & R8 & R9 & R10).
    { intros n Hn. now apply HE. } { intros n Hn. eapply els_ok; eauto. }
    rewrite H in R1. injection R1 as -> ->. split; [eauto|]. split.
    { intros n Hn. split; [|auto]. apply els_meaning; auto. now apply HE. }
    assert (forall k, get_param h' (ps_items (q_params q)) k = get_param (q_heap q) (ps_items (q_params q)) k) as GP.
    { intro k. unfold get_param. destruct (dget (ps_items (q_params q)) k) as [l|] eqn:El; [|reflexivity]. apply dget_in in El. apply (po_locs _ _ _ _ OK) in El.
      rewrite R3. now apply nth_error_app1. }
    split.
    { intros k Hk. unfold value_at. rewrite <- GP. unfold get_param. now rewrite (R9 k Hk). }
    assert (locs_ok h' (ps_items out)) as HL by exact (po_locs _ _ _ _ R2).
    assert (locs_ok (q_heap q) (ps_items (q_params q))) as HL0 by exact (po_locs _ _ _ _ OK).
    assert (forall n, (1 <= n <= num)%nat -> dget (projv h' n (ps_items out)) "tc" = if in_dec string_dec "tc"%string names then dget (projv (q_heap q) n (ps_items (q_params q))) "tc" else None) as TC.
    { intros n Hn. rewrite (R10 n Hn). unfold to_synth1. 
      assert (NoDup (dkeys (projv (q_heap q) n (ps_items (q_params q))))) as NP by (apply projv_nodup, OK).
      assert (forall src el d, ~ In "tc"%string (map fst (sets_of el)) -> dget (fold_left (set1_to false src) (sets_of el) d) "tc" = dget d "tc") as Q.
      { intros src el. generalize (sets_of el). induction l as [|[p x] l IH]; intros d N; [reflexivity|]. cbn [fold_left]. rewrite IH by (intro; apply N; now right).
        unfold set1_to. cbn [fst snd]. apply dget_dset_other. intros <-. apply N. now left. }
      rewrite Q by (destruct (E1 n); cbn; intuition discriminate).
      destruct (in_dec string_dec "tc"%string names) as [I|N].
      - assert (In "tc"%string PNAMES) as IP by (cbn; tauto). assert (In "tc"%string (dkeys (projv (q_heap q) n (ps_items (q_params q))))) as IK.
        { assert (dget (projv (q_heap q) n (ps_items (q_params q))) "tc" <> None) as NN.
          { rewrite projv_get by auto. pose proof (proj2 (HE n Hn) "tc"%string I) as V. unfold value_at in V. intro Z. rewrite Z in V. discriminate. }
          destruct (in_dec string_dec "tc"%string (dkeys (projv (q_heap q) n (ps_items (q_params q))))); auto. exfalso. apply NN. now apply dget_none. }
        apply dget_some_key in IK as (x & IK). rewrite IK. now apply dget_dupdate_in.
      - rewrite dget_dupdate_notin.
        + apply dget_none. unfold dkeys. rewrite map_map. cbn. now rewrite map_id.
        + intro I. apply dget_some_key in I as (x & I). rewrite projv_get in I; [|exact HL0|cbn; tauto].
          unfold get_param in I. destruct (dget (ps_items (q_params q)) (key "tc" n)) eqn:Z; [|discriminate]. apply dget_key in Z. apply N. apply (ST n); auto. cbn; tauto. }
    split.
    - intros n Hn I. specialize (TC n Hn). destruct (in_dec string_dec "tc"%string names); [|easy].
      apply proj_value; [auto|cbn; tauto|]. rewrite TC. apply holds_proj with (names := names); auto; [cbn; tauto|now apply HE].
    - intros n Hn N I. specialize (TC n Hn). destruct (in_dec string_dec "tc"%string names); [easy|]. rewrite projv_get in TC; [|auto|cbn; tauto].
      apply dget_some_key in I as (l & El). unfold get_param in TC. rewrite El in TC. apply dget_in in El. apply HL in El. apply nth_error_Some in El. congruence.
  Qed.

  (** ** the array *)
  Variables (h : heap) (v0 : list row).
  Hypothesis HX : exists t, h = (q_heap q ++ t)%list.
  Hypothesis DV : dict_to_vector h (ps_items (q_params q)) idx = Ok v0.

  Lemma heap_same k : get_param h (ps_items (q_params q)) k = get_param (q_heap q) (ps_items (q_params q)) k.
  Proof.
    destruct FO as [_ OK _ _]. destruct HX as [t ->]. unfold get_param. destruct (dget (ps_items (q_params q)) k) as [l|] eqn:El; [|reflexivity].
    apply dget_in in El. apply (po_locs _ _ _ _ OK) in El. now apply nth_error_app1.
  Qed.
  Lemma row_of k i : In k keys -> dget idx k = Some i -> (forall k', In k' keys -> dget idx k' = Some i -> k' = k) ->
    exists p bb sc, get_param (q_heap q) (ps_items (q_params q)) k = Some p /\ p_vary p = VBool bb /\ nth_error v0 i = Some (mkRow (p_value p) bb sc (p_lin p)).
  Proof.
    intros Hk Hi U. destruct (dv_row h (ps_items (q_params q)) idx keys k i _ _ DV Hk Hi U) as (p & bb & A & B & C). rewrite heap_same in A. eauto 10.
  Qed.

  Lemma rows_planets n : (n < num)%nat -> five v0 (5 * n) (fun j => meaning (E (S n)) (nth j names "")).
  Proof.
    intros Hn j Hj. destruct fit_facts as (HB & _ & I1 & I2 & _). destruct FO as [_ OK ST HE].
    destruct (nth_error names j) as [p|] eqn:Ep.
    2:{ apply nth_error_None in Ep. rewrite (fit_length b names HB) in Ep. lia. }
    rewrite (nth_error_nth names j "" Ep). assert (In p names) as Hp by (eapply nth_error_In; eauto). assert (In p PNAMES) as Hpp by (eapply fit_pnames; eauto).
    pose proof (fit_column _ _ _ _ HB Ep) as Hc. pose proof (po_has _ _ _ _ OK (S n) p ltac:(fold num; lia) Hp) as Hk.
    destruct (row_of (key p (S n)) (j + 5 * n)%nat Hk) as (x & bb & sc & A & _ & B).
    - rewrite (I1 (S n) p ltac:(lia) Hpp). f_equal. lia.
    - intros k' Hk' Hi. destruct (I2 k' _ Hi ltac:(lia)) as (n' & p' & Hn' & Hp' & -> & Q). pose proof (column_lt p').
      assert (n' = S n /\ column p' = j) as [-> Hc'] by lia. assert (In p' names) as Hin by (apply (ST (S n)); auto).
      apply In_nth_error in Hin as (j' & Ej'). pose proof (fit_column _ _ _ _ HB Ej'). assert (j' = j) by lia. subst j'. congruence.
    - unfold rowval. rewrite B. cbn. pose proof (proj2 (HE (S n) ltac:(fold num; lia)) p Hp) as V. unfold value_at in V. now rewrite A in V.
  Qed.

  Lemma rows_trend : (forall x, value_at (q_heap q) (q_params q) "dvdt" = Some x -> vget v0 (5 * num) = Ok x) /\
    (forall x, value_at (q_heap q) (q_params q) "curv" = Some x -> vget v0 (5 * num + 1) = Ok x) /\
    dget idx "dvdt" = Some (5 * num)%nat /\ dget idx "curv" = Some (5 * num + 1)%nat.
  Proof.
    destruct fit_facts as (_ & (n0 & IK) & _ & _ & I3 & I4 & _).
    split; [|split; [|split; [apply IK|apply IK]]].
    - intros x V. unfold value_at in V. destruct (get_param (q_heap q) (ps_items (q_params q)) "dvdt") as [p|] eqn:Ep; [|discriminate].
      destruct (row_of "dvdt" (5 * num)%nat) as (p' & bb & sc & A & _ & B).
      + unfold get_param in Ep. destruct (dget _ _) eqn:Ed in Ep; [|discriminate]. eapply dget_key; eauto.
      + apply IK.
      + intros k' _ Hi. eapply I3; eauto.
      + unfold vget. rewrite B. cbn. rewrite Ep in A. injection A as <-. now rewrite V.
    - intros x V. unfold value_at in V. destruct (get_param (q_heap q) (ps_items (q_params q)) "curv") as [p|] eqn:Ep; [|discriminate].
      destruct (row_of "curv" (5 * num + 1)%nat) as (p' & bb & sc & A & _ & B).
      + unfold get_param in Ep. destruct (dget _ _) eqn:Ed in Ep; [|discriminate]. eapply dget_key; eauto.
      + apply IK.
      + intros k' _ Hi. eapply I4; eauto.
      + unfold vget. rewrite B. cbn. rewrite Ep in A. injection A as <-. now rewrite V.
  Qed.

  Lemma row_inst k i : inst k = true -> In k keys -> dget idx k = Some i ->
    exists p bb sc, get_param (q_heap q) (ps_items (q_params q)) k = Some p /\ p_vary p = VBool bb /\ nth_error v0 i = Some (mkRow (p_value p) bb sc (p_lin p)).
  Proof.
    destruct fit_facts as (_ & (n0 & IK) & _). intros HI Hk Hi. apply row_of; auto. intros k' _ Hk'. apply (io_inj _ _ _ IK k' k i); auto.
    apply (io_inst _ _ _ IK k); auto.
  Qed.

  (** ** the model on it *)
  Notation MR := (marg_rows (q_likes q) v0).
  Lemma marg_high i : MR i -> (5 * num + 2 <= i)%nat.
  Proof.
    destruct fit_facts as (_ & (n0 & IK) & _ & _ & _ & _ & F & _). intros (l & g & Hl & -> & _).
    destruct (Forall2_in_r _ _ _ _ F Hl) as (d & _ & B). unfold built_from in B. apply (like_gidx _ _ _ _ IK). apply B.
  Qed.

  Variables (dvdt curv : R).
  Hypothesis HD : value_at (q_heap q) (q_params q) "dvdt" = Some dvdt.
  Hypothesis HC : value_at (q_heap q) (q_params q) "curv" = Some curv.

  Lemma model_synth v : agree MR v0 v -> exists w, v_to_synth (ps_basis (q_params q)) v false None = Ok w /\
    (forall n, (n < num)%nat -> five w (5 * n) (el_at (E1 (S n)))) /\ vget v (5 * num) = Ok dvdt /\ vget v (5 * num + 1) = Ok curv.
  Proof.
    intro A. destruct fit_facts as (HB & _). destruct FO as [_ OK ST HE].
    assert (forall i, (i < 5 * num + 2)%nat -> nth_error v i = nth_error v0 i) as Q.
    { intros i Hi. symmetry. apply (agree_get _ _ _ _ A). intro M. apply marg_high in M. lia. }
    destruct (v_to_synth_main b names (ps_basis (q_params q)) v false None (fun n j => meaning (E (S n)) (nth j names "")) (fun n => E1 (S n)) HB (po_name _ _ _ _ OK)) as (v' & C1 & C2 & C3 & C4).
    { intros n Hn j Hj. rewrite (po_num _ _ _ _ OK) in Hn. unfold rowval. rewrite Q by (fold num in Hn; lia). now apply rows_planets. }
    { intros n Hn. unfold E1. rewrite <- (els_ok b names (meaning (E (S n))) HB). eapply synth_of_names; eauto.
      intros p Hp. unfold row_getter. f_equal. eapply row_names; eauto. }
    exists v'. split; auto. split; [intros n Hn; apply C3; now rewrite (po_num _ _ _ _ OK)|].
    destruct rows_trend as (T1 & T2 & _). rewrite <- (T1 _ HD), <- (T2 _ HC). unfold vget. rewrite !Q by lia. auto.
  Qed.

  Definition who (pn : option Z) : list nat := match pn with None => seq 1 num | Some z => [Z.to_nat z] end.
  Lemma model_value v t pn vel : agree MR v0 v -> valid_planet num pn -> q_model use_c fuel q v t pn = Ok vel ->
    vel = map (fun t => rsum (map (fun n => curve_of use_c fuel (E1 n) t) (who pn)) + (dvdt * (t - q_tb q) + curv * (t - q_tb q) ^ 2)) t /\
    forall n x, In n (who pn) -> In x t -> moves use_c fuel (E1 n) x (curve_of use_c fuel (E1 n) x).
  Proof.
    intros A VP H. destruct (model_synth v A) as (w & W1 & W2 & W3 & W4). destruct rows_trend as (_ & _ & I3 & I4).
    destruct (superposition _ _ _ _ _ _ H) as (w' & d' & c' & os & cs & EW & (i1 & i2 & T1 & T2 & T3 & T4) & L1 & L2 & HH & LV & NV).
    cbn [m_params m_vector m_time_base v_indices v_vector] in *. assert (w' = w) by congruence. subst w'.
    fold idx in T1, T3. assert (d' = dvdt) by congruence. assert (c' = curv) by congruence. subst d' c'.
    assert (planets_of (q_params q) pn = map Z.of_nat (who pn)) as PW.
    { destruct pn as [z|]; cbn; [|reflexivity]. cbn in VP. f_equal. lia. }
    rewrite PW in *. rewrite map_length in L1, L2.
    assert (forall n, In n (who pn) -> (1 <= n <= num)%nat) as WR.
    { intros n Hn. destruct pn as [z|]; cbn in Hn; [destruct Hn as [<-|[]]; cbn in VP; lia|]. apply in_seq in Hn. lia. }
    assert (forall j n c, nth_error (who pn) j = Some n -> nth_error cs j = Some c -> exists x, rv_drive use_c fuel t (orb (E1 n)) = Ok x /\ npelems x = c) as HR.
    { intros j n c Hj Hc. destruct (nth_error os j) as [o|] eqn:Eo.
      2:{ apply nth_error_None in Eo. assert (j < length (who pn))%nat by (apply nth_error_Some; congruence). lia. }
      assert (nth_error (map Z.of_nat (who pn)) j = Some (Z.of_nat n)) as Hz by (rewrite nth_error_map, Hj; reflexivity).
      destruct (HH j _ o c Hz Eo Hc) as (B & x & B1 & B2). exists x. split; auto.
      assert (1 <= n <= num)%nat as Hn by (apply WR; eapply nth_error_In; eauto). destruct n as [|n]; [lia|].
      rewrite (orbel_at_five w n (E1 (S n)) (W2 n ltac:(lia))) in B. now injection B as <-. }
    split.
    - apply nth_error_ext. intro i. rewrite nth_error_map. destruct (nth_error t i) as [x|] eqn:Ex; cbn.
      + rewrite (NV i x Ex). f_equal. rewrite (sum_at_map cs (fun n => curve_of use_c fuel (E1 n) x) (who pn) i L2).
        * lra.
        * intros j n c Hj Hc. destruct (HR j n c Hj Hc) as (y & Y1 & <-). eapply curve_moves; eauto.
      + apply nth_error_None. apply nth_error_None in Ex. lia.
    - intros n x Hn Hx. apply In_nth_error in Hn as (j & Ej). apply In_nth_error in Hx as (i & Ei).
      destruct (nth_error cs j) as [c|] eqn:Ec.
      2:{ apply nth_error_None in Ec. assert (j < length (who pn))%nat by (apply nth_error_Some; congruence). lia. }
      destruct (HR j n c Ej Ec) as (y & Y1 & _). now destruct (curve_moves _ _ _ _ _ _ _ Y1 Ei).
  Qed.

  (** ** residuals and uncertainties *)
  Lemma resid_same l v : In l (q_likes q) -> agree MR v0 v ->
    snd (rv_residuals fwd l v) = snd (rv_residuals fwd l v0) /\ agree MR v0 (fst (rv_residuals fwd l v)).
  Proof.
    intros Hl A. destruct fit_facts as (_ & _ & _ & _ & _ & _ & _ & FS & _). destruct (FS v0) as [FB SE].
    destruct (residuals_agree _ _ _ FB l v0 v Hl (SE l Hl) (agree_refl _ _) A) as [Q _]. split; [now rewrite Q|].
    eapply agree_trans; [exact A|]. apply (residuals_frame _ _ fwd l Hl). eapply same_shape_of; eauto.
  Qed.
  Lemma raw_from ls : forall acc v v' raw, incl ls (q_likes q) -> agree MR v0 v ->
    comp_residuals_from acc (map (rv_member fwd) ls) v = (v', Ok raw) ->
    agree MR v0 v' /\ exists rs, Forall2 (fun l r => snd (rv_residuals fwd l v0) = Ok r) ls rs /\ raw = (acc ++ concat rs)%list.
  Proof.
    induction ls as [|l ls IH]; cbn [map comp_residuals_from rv_member mb_residuals]; intros acc v v' raw HI A H.
    - injection H as <- <-. split; auto. exists []. split; [constructor|cbn; now rewrite app_nil_r].
    - destruct (resid_same l v (HI l (or_introl eq_refl)) A) as [Q1 Q2]. destruct (rv_residuals fwd l v) as [v1 [r|]]; [|discriminate]. cbn [fst snd] in *.
      destruct (IH _ _ _ _ (fun x Hx => HI x (or_intror Hx)) Q2 H) as (A' & rs & F & ->). split; auto. exists (r :: rs). split; [constructor; auto|].
      cbn. now rewrite app_assoc.
  Qed.
  Lemma raw_all v' raw : comp_residuals (q_members use_c fuel q) v0 = (v', Ok raw) ->
    agree MR v0 v' /\ q_likes q <> [] /\ exists rs, Forall2 (fun l r => snd (rv_residuals fwd l v0) = Ok r) (q_likes q) rs /\ raw = concat rs.
  Proof.
    unfold q_members. fold fwd. destruct (q_likes q) as [|l ls] eqn:EL; cbn [map comp_residuals rv_member mb_residuals]; [discriminate|]. rewrite <- EL.
    intro H. assert (incl (l :: ls) (q_likes q)) as HI by (rewrite EL; apply incl_refl).
    destruct (resid_same l v0 (HI l (or_introl eq_refl)) (agree_refl _ _)) as [_ Q2]. destruct (rv_residuals fwd l v0) as [v1 [r|]] eqn:ER; [|discriminate]. cbn [fst snd] in *.
    destruct (raw_from ls r v1 v' raw (fun x Hx => HI x (or_intror Hx)) Q2 H) as (A' & rs & F & ->). split; auto. split; [rewrite EL; discriminate|].
    exists (r :: rs). split; [rewrite EL; constructor; [now rewrite ER|auto]|reflexivity].
  Qed.

  Definition total t := rsum (map (fun n => curve_of use_c fuel (E1 n) t) (seq 1 num)) + (dvdt * (t - q_tb q) + curv * (t - q_tb q) ^ 2).
  Lemma per_row_sub gam f t : forall i y e cor, length y = length t -> length e = length t -> length cor = length t ->
    map2 Rminus (map2 Rminus (map (fun y => y - gam) y) (map f t)) cor = per_row (fun j t y _ => y - gam - nth (j - i) cor 0 - f t) i t y e.
  Proof.
    induction t as [|a t IH]; intros i [|b0 y] [|c0 e] [|r cor] L1 L2 L3; try discriminate; [reflexivity|]. cbn [map map2 per_row].
    f_equal; [rewrite Nat.sub_diag; cbn; lra|]. rewrite (IH (S i)) with (e := e) by (cbn in *; lia).
    clear. assert (forall u i0 y1 e1, (S i <= i0)%nat -> per_row (fun j t0 y0 _ => y0 - gam - nth (j - S i) cor 0 - f t0) i0 u y1 e1 = per_row (fun j t0 y0 _ => y0 - gam - nth (j - i) (r :: cor) 0 - f t0) i0 u y1 e1) as Q.
    { induction u as [|a1 u IH]; intros i0 [|b1 y1] [|c1 e1] L; try reflexivity. cbn [per_row]. f_equal; [|apply IH; lia].
      replace (i0 - i)%nat with (S (i0 - S i)) by lia. reflexivity. }
    apply Q. lia.
  Qed.
  Lemma resid_one d l r : built_from num idx keys d l -> In l (q_likes q) -> snd (rv_residuals fwd l v0) = Ok r ->
    sized d /\ (forall n x, In n (seq 1 num) -> In x (ds_t d) -> moves use_c fuel (E1 n) x (curve_of use_c fuel (E1 n) x)) /\
    exists gam cor, (forall p, get_param (q_heap q) (ps_items (q_params q)) ("gamma" ++ ds_suffix d) = Some p -> p_lin p = false \/ p_vary p = VBool true -> p_value p = Some gam) /\
      (ds_dvars d = [] -> forall i, cor i = 0) /\
      r = per_row (fun i t y e => y - gam - cor i - total t) 0 (ds_t d) (ds_y d) (ds_err d).
  Proof.
    intros (B1 & B2 & B3 & B4 & B5 & B6 & B7 & B8 & B9 & B10 & B11) Hl H. rewrite B5 in B7.
    unfold rv_residuals in H. destruct (fwd v0 (l_x l)) as [m|] eqn:EF; [|discriminate].
    destruct (model_value v0 (l_x l) None m (agree_refl _ _) I EF) as [Em MV]. cbn [who] in *. fold (total) in Em.
    destruct (nth_error v0 (l_gidx l)) as [g|] eqn:Eg; [|discriminate].
    destruct (Nat.eqb_spec (length m) (length (l_y l))) as [L1|]; [|discriminate].
    destruct (Nat.eqb_spec (length (l_yerr l)) (length (l_y l))) as [L2|]; [|discriminate]. cbn [andb] in H.
    assert (length m = length (l_x l)) as LM by (rewrite Em; apply map_length).
    split; [split; congruence|]. split; [now rewrite <- B1|].
    set (step1 := if marginalised g then _ else _) in H. destruct step1 as [v1|] eqn:ES; [|discriminate]. cbn [snd] in H.
    destruct (vget v1 (l_gidx l)) as [gam|] eqn:EV; [|discriminate]. cbn [bind] in H.
    destruct (decorr_corr _ _ _ _ _ H) as (cor & LC & -> & ZC). rewrite map2_length, map_length in LC, ZC by (rewrite map_length; congruence).
    exists gam, (fun i => nth i cor 0). split; [|split].
    - intros p Hp HM. pose proof (lo_gidx _ _ _ B11) as GI. rewrite B5 in GI.
      destruct (row_inst _ _ (inst_gamma _) B7 GI) as (p' & bb & sc & A1 & A2 & A3). rewrite Hp in A1. injection A1 as <-. rewrite A3 in Eg. injection Eg as <-.
      assert (marginalised (mkRow (p_value p) bb sc (p_lin p)) = false) as NM.
      { unfold marginalised. cbn. destruct HM as [->|HM]; [reflexivity|]. rewrite A2 in HM. injection HM as ->. apply andb_false_r. }
      unfold step1 in ES. rewrite NM in ES. injection ES as <-. unfold vget in EV. rewrite A3 in EV. cbn in EV. destruct (p_value p); [congruence|discriminate].
    - intros Z i. rewrite (ZC (B10 Z)). clear. generalize (length (l_y l)). intro n. revert i. induction n as [|n IH]; intros [|i]; cbn; auto.
    - rewrite Em, <- B1, <- B2, <- B3. rewrite (per_row_sub gam total (l_x l) 0 (l_y l) (l_yerr l) cor) by congruence.
      apply per_row_ext. intros. now rewrite Nat.sub_0_r.
  Qed.
  Lemma tabulate_shift F ds0 : forall k, tabulate F (S k) ds0 = tabulate (fun k => F (S k)) k ds0.
  Proof. induction ds0 as [|d ds0 IH]; intro k; [reflexivity|]. cbn. now rewrite IH. Qed.

  Lemma raw_table ds0 ls rs : Forall2 (built_from num idx keys) ds0 ls -> incl ls (q_likes q) -> Forall2 (fun l r => snd (rv_residuals fwd l v0) = Ok r) ls rs ->
    Forall sized ds0 /\ (forall n x, In n (seq 1 num) -> In x (times ds0) -> moves use_c fuel (E1 n) x (curve_of use_c fuel (E1 n) x)) /\
    exists G C, concat rs = tabulate (fun k i t y e => y - G k - C k i - total t) 0 ds0 /\
      (forall k d p, nth_error ds0 k = Some d -> get_param (q_heap q) (ps_items (q_params q)) ("gamma" ++ ds_suffix d) = Some p -> p_lin p = false \/ p_vary p = VBool true -> p_value p = Some (G k)) /\
      (forall k d, nth_error ds0 k = Some d -> ds_dvars d = [] -> forall i, C k i = 0) /\
      (forall k d l, nth_error ds0 k = Some d -> nth_error ls k = Some l ->
         snd (rv_residuals fwd l v0) = Ok (per_row (fun i t y e => y - G k - C k i - total t) 0 (ds_t d) (ds_y d) (ds_err d))).
  Proof.
    intros F. revert rs. induction F as [|d l ds0 ls B F IH]; intros rs HI R.
    - inversion R; subst. split; [constructor|]. split; [intros n x _ []|]. exists (fun _ => 0), (fun _ _ => 0). split; [reflexivity|].
      split; [intros [|k] ? ? Z; discriminate|]. split; [intros [|k] ? Z; discriminate|intros [|k] ? ? Z; discriminate].
    - inversion R as [|? r ? rs' R1 R2]; subst. destruct (IH rs' (fun x Hx => HI x (or_intror Hx)) R2) as (S1 & S2 & G & C & A1 & A2 & A3 & A4).
      destruct (resid_one d l r B (HI l (or_introl eq_refl)) R1) as (T1 & T2 & gam & cor & T3 & T4 & T5).
      split; [constructor; auto|]. split.
      { intros n x Hn Hx. unfold times in Hx. cbn in Hx. apply in_app_or in Hx as [Hx|Hx]; auto. }
      exists (fun k => match k with O => gam | S k => G k end), (fun k => match k with O => cor | S k => C k end). split; [|split; [|split]].
      + cbn [concat tabulate]. rewrite tabulate_shift, A1, T5. reflexivity.
      + intros [|k] d0 p Hk; [injection Hk as <-; apply T3|apply (A2 k d0 p Hk)].
      + intros [|k] d0 Hk; [injection Hk as <-; apply T4|apply (A3 k d0 Hk)].
      + intros [|k] d0 l0 Hk Hl; [injection Hk as <-; injection Hl as <-; now rewrite R1, T5|apply (A4 k d0 l0 Hk Hl)].
  Qed.

  (** uncertainties *)
  Lemma per_row_err jit t : forall i y e, length y = length t -> length e = length t ->
    map (fun s => sqrt (sig_quad jit s)) e = per_row (fun _ _ _ s => sqrt (s ^ 2 + jit ^ 2)) i t y e.
  Proof.
    induction t as [|a t IH]; intros i [|y0 y] [|e0 e] Z1 Z2; try discriminate; [reflexivity|]. cbn [map per_row]. f_equal.
    apply IH; cbn in *; lia.
  Qed.
  Lemma err_table ds0 ls : Forall2 (built_from num idx keys) ds0 ls -> forall acc e, Forall sized ds0 ->
    for_each (map (rv_member fwd) ls) (fun acc m => do e <- mb_errorbars m v0; Ok (acc ++ e)%list) acc = Ok e ->
    exists J, e = (acc ++ tabulate (fun k _ _ _ s => sqrt (s ^ 2 + J k ^ 2)) 0 ds0)%list /\
      forall k d, nth_error ds0 k = Some d -> value_at (q_heap q) (q_params q) ("jit" ++ ds_suffix d) = Some (J k).
  Proof.
    induction 1 as [|d l ds0 ls B F IH]; intros acc e SZ H.
    - cbn in H. injection H as <-. exists (fun _ => 0). split; [cbn; now rewrite app_nil_r|]. intros [|k] ? Z; discriminate.
    - inversion SZ as [|? ? [Z1 Z2] Z3]; subst. cbn [map for_each rv_member mb_errorbars] in H. unfold rv_errorbars at 1 in H.
      destruct (vget v0 (l_jidx l)) as [jit|] eqn:EJ; [|discriminate]. cbn [bind] in H. destruct (IH _ _ Z3 H) as (J & -> & HJ).
      destruct B as (B1 & B2 & B3 & B4 & B5 & B6 & B7 & B8 & B9 & B10 & B11).
      exists (fun k => match k with O => jit | S k => J k end). split.
      + cbn [tabulate]. rewrite tabulate_shift, <- app_assoc. f_equal. f_equal. rewrite B3. now apply per_row_err.
      + intros [|k] d0 Hk; [injection Hk as <-|apply (HJ k d0 Hk)].
        pose proof (lo_jidx _ _ _ B11) as JI. rewrite B6 in *. destruct (row_inst _ _ (inst_jit _) B8 JI) as (p & bb & sc & A1 & _ & A3).
        unfold value_at. rewrite A1. unfold vget in EJ. rewrite A3 in EJ. cbn in EJ. destruct (p_value p); [congruence|discriminate].
  Qed.
  Lemma err_all e : Forall sized ds -> comp_errorbars (q_members use_c fuel q) v0 = Ok e ->
    exists J, e = tabulate (fun k _ _ _ s => sqrt (s ^ 2 + J k ^ 2)) 0 ds /\
      forall k d, nth_error ds k = Some d -> value_at (q_heap q) (q_params q) ("jit" ++ ds_suffix d) = Some (J k).
  Proof.
    intros SZ H. destruct fit_facts as (_ & _ & _ & _ & _ & _ & F & _). apply (err_table ds (q_likes q) F [] e SZ). fold fwd. unfold q_members in H. fold fwd in H.
    destruct (map (rv_member fwd) (q_likes q)) as [|m ms] eqn:EM; [discriminate|]. cbn [comp_errorbars] in H. cbn [for_each].
    destruct (mb_errorbars m v0); [|discriminate]. exact H.
  Qed.
End Fit.
