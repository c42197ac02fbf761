(** C16 *)
From Coq Require Import Reals String ZArith Bool Lia Lra List.
From Verif Require Import Py PyFacts Params Kepler KeplerSpec KeplerProofs DanbyProofs RvProofs Basis BasisNum RVModel.
Import ListNotations.
Open Scope R_scope.

(** general facts on rv_drive *)
Lemma rv_drive_length use_c fuel ts o v : rv_drive use_c fuel ts o = Ok v -> length (npelems v) = length ts.
Proof.
  unfold rv_drive. destruct (reqb (o_e o) 0).
  - intro H; inversion H; subst. cbn. apply map_length.
  - intro H. eapply (general_branch use_c). exact H.
Qed.

Lemma map_const {A B C} (f : A -> B) (c : C) (l : list A) : map (fun _ => c) (map f l) = map (fun _ => c) l.
Proof. rewrite map_map. reflexivity. Qed.

Lemma rv_drive_single use_c fuel ts o v i t : rv_drive use_c fuel ts o = Ok v -> nth_error ts i = Some t ->
  exists v1 x, rv_drive use_c fuel [t] o = Ok v1 /\ npelems v1 = [x] /\ nth_error (npelems v) i = Some x.
Proof.
  unfold rv_drive. destruct (reqb (o_e o) 0).
  - intros H Hi; inversion H; subst. cbn. eexists. eexists. split; [reflexivity|]. split; [reflexivity|].
    now apply map_nth_error with (f := fun x => _).
  - set (per := if rltb (o_per o) 0 then / 10000 else o_per o). cbv zeta.
    set (e := if rltb (99 / 100) (if rltb (o_e o) 0 then 0 else o_e o) then 99 / 100
              else (if rltb (o_e o) 0 then 0 else o_e o)).
    destruct use_c.
    + unfold c_rv_drive_array. intros H Hi.
      destruct (map_res _ ts) as [l|] eqn:E; [|discriminate]. cbn in H. inversion H; subst.
      destruct (map_res_nth _ _ _ _ _ E Hi) as (y & Fy & Ny).
      cbn [map_res]. rewrite Fy. cbn [bind]. exists (Arr [y]), y. auto.
    + unfold true_anomaly. intros H Hi.
      destruct (kepler fuel _ (map (fun _ => 0 + e) ts)) as [e1|] eqn:E; [|discriminate]. cbn in H. inversion H; subst.
      assert (length (map (fun _ : R => 0 + e) ts) = length (map (mean_anomaly per (o_tp o)) ts)) as HL
        by now rewrite !map_length.
      destruct (kepler_array_single fuel _ _ e1 HL E i (mean_anomaly per (o_tp o) t) (0 + e)) as (x & A & B).
      * now apply map_nth_error.
      * change (0 + e) with ((fun _ : R => 0 + e) t). now apply map_nth_error.
      * cbn [map]. rewrite A. cbn. eexists. eexists. split; [reflexivity|]. split; [reflexivity|].
        rewrite !npelems_npmap. now apply map_nth_error, map_nth_error.
Qed.

Lemma length_map2 {A B C} (f : A -> B -> C) a b : length a = length b -> length (map2 f a b) = length b.
Proof. revert b. induction a; destruct b; cbn; auto; discriminate. Qed.

Lemma nth_map2 {A B C} (f : A -> B -> C) a b i x y : nth_error a i = Some x -> nth_error b i = Some y ->
  nth_error (map2 f a b) i = Some (f x y).
Proof.
  revert b i. induction a; destruct b; destruct i; cbn; try discriminate; auto.
  intros H1 H2; congruence.
Qed.

Lemma add_np_ok vel x : length (npelems x) = length vel ->
  add_np vel x = Ok (map2 Rplus vel (npelems x)).
Proof.
  destruct x as [l|c]; cbn.
  - intros ->. now rewrite Nat.eqb_refl.
  - destruct vel as [|a [|? ?]]; cbn; try discriminate. reflexivity.
Qed.

(** sum of the i-th values of a list of curves *)
Definition sum_at (cs : list (list R)) (i : nat) : R := fold_right (fun c s => nth i c 0 + s) 0 cs.

Lemma calc_loop use_c fuel t w (planets : list Z) : forall vel (os : list orbel) (cs : list (list R)),
  length vel = length t -> length os = length planets -> length cs = length planets ->
  (forall j n o c, nth_error planets j = Some n -> nth_error os j = Some o -> nth_error cs j = Some c ->
     orbel_at w n = Ok o /\ exists x, rv_drive use_c fuel t o = Ok x /\ npelems x = c) ->
  exists vel', for_each planets
    (fun vel n => do o <- orbel_at w n; do x <- rv_drive use_c fuel t o; add_np vel x) vel = Ok vel' /\
    length vel' = length t /\
    forall i a, nth_error vel i = Some a -> nth_error vel' i = Some (a + sum_at cs i).
Proof.
  induction planets as [|n r IH]; intros vel os cs Hl Ho Hc H.
  - exists vel. cbn. destruct cs; [|discriminate]. repeat split; auto. intros. cbn. now rewrite Rplus_0_r.
  - destruct os as [|o os]; [discriminate|]. destruct cs as [|c cs]; [discriminate|].
    destruct (H 0%nat n o c) as (A & x & B & C); auto. cbn [for_each]. rewrite A. cbn [bind]. rewrite B. cbn [bind].
    pose proof (rv_drive_length _ _ _ _ _ B) as L. rewrite add_np_ok by congruence. cbn [bind].
    destruct (IH (map2 Rplus vel (npelems x)) os cs) as (vel' & E & L' & N').
    + rewrite length_map2; congruence.
    + cbn in Ho. lia.
    + cbn in Hc. lia.
    + intros j m o' c' H1 H2 H3. now apply (H (S j)).
    + exists vel'. split; auto. split; auto. intros i a Ha.
      assert (i < length (npelems x))%nat as Hi by (rewrite L, <- Hl; apply nth_error_Some; congruence).
      destruct (nth_error (npelems x) i) as [y|] eqn:Ey; [|apply nth_error_None in Ey; lia].
      rewrite (N' i (a + y)) by now apply nth_map2. cbn [sum_at fold_right]. fold (sum_at cs i). f_equal.
      rewrite <- C, (nth_error_nth _ _ 0 Ey). ring.
Qed.

Lemma calc_loop_inv use_c fuel t w (planets : list Z) : forall vel vel',
  length vel = length t ->
  for_each planets
    (fun vel n => do o <- orbel_at w n; do x <- rv_drive use_c fuel t o; add_np vel x) vel = Ok vel' ->
  exists (os : list orbel) (cs : list (list R)), length os = length planets /\ length cs = length planets /\
  (forall j n o c, nth_error planets j = Some n -> nth_error os j = Some o -> nth_error cs j = Some c ->
     orbel_at w n = Ok o /\ exists x, rv_drive use_c fuel t o = Ok x /\ npelems x = c).
Proof.
  induction planets as [|n r IH]; intros vel vel' Hl E.
  - exists [], []. repeat split; auto; destruct j; discriminate.
  - cbn [for_each] in E. destruct (orbel_at w n) as [o|] eqn:A; [|discriminate]. cbn [bind] in E.
    destruct (rv_drive use_c fuel t o) as [x|] eqn:B; [|discriminate]. cbn [bind] in E.
    pose proof (rv_drive_length _ _ _ _ _ B) as L. rewrite add_np_ok in E by congruence. cbn [bind] in E.
    destruct (IH (map2 Rplus vel (npelems x)) vel') as (os & cs & L1 & L2 & H).
    + rewrite length_map2; congruence.
    + auto.
    + exists (o :: os), (npelems x :: cs). split; [cbn; lia|]. split; [cbn; lia|].
      intros [|j] m o' c' H1 H2 H3; cbn in *.
      * inversion H1; inversion H2; inversion H3; subst. eauto.
      * eauto.
Qed.

Definition planets_of (ps : params) (pn : option Z) : list Z :=
  match pn with None => map Z.of_nat (seq 1 (ps_num ps)) | Some n => [n] end.

(** the trend rows of a model *)
Definition trend_rows (m : rvmodel) (dvdt curv : R) : Prop :=
  exists i1 i2, dget (v_indices (m_vector m)) "dvdt" = Some i1 /\ vget (v_vector (m_vector m)) i1 = Ok dvdt /\
                dget (v_indices (m_vector m)) "curv" = Some i2 /\ vget (v_vector (m_vector m)) i2 = Ok curv.

Lemma superposition use_c fuel m t pn vel :
  rvmodel_call use_c fuel m t pn = Ok vel ->
  exists w dvdt curv os cs,
    v_to_synth (ps_basis (m_params m)) (v_vector (m_vector m)) false None = Ok w /\
    trend_rows m dvdt curv /\
    length os = length (planets_of (m_params m) pn) /\ length cs = length (planets_of (m_params m) pn) /\
    (forall j n o c, nth_error (planets_of (m_params m) pn) j = Some n -> nth_error os j = Some o ->
       nth_error cs j = Some c -> orbel_at w n = Ok o /\ exists x, rv_drive use_c fuel t o = Ok x /\ npelems x = c) /\
    length vel = length t /\
    forall i ti, nth_error t i = Some ti ->
      nth_error vel i = Some (sum_at cs i + dvdt * (ti - m_time_base m) + curv * (ti - m_time_base m) ^ 2).
Proof.
  unfold rvmodel_call, standard_rv_calc. fold (planets_of (m_params m) pn).
  destruct (v_to_synth _ _ _ _) as [w|] eqn:EW; [|discriminate]. cbn [bind].
  destruct (for_each _ _ _) as [vel0|] eqn:EF; [|discriminate]. cbn [bind].
  unfold dget_res. destruct (dget _ "dvdt") as [i1|] eqn:E1; [|discriminate]. cbn [bind].
  destruct (vget _ i1) as [dvdt|] eqn:G1; [|discriminate]. cbn [bind].
  destruct (dget _ "curv") as [i2|] eqn:E2; [|discriminate]. cbn [bind].
  destruct (vget _ i2) as [curv|] eqn:G2; [|discriminate]. cbn [bind]. intro H. inversion H; subst vel; clear H.
  assert (length (repeat 0 (length t)) = length t) as L0 by apply repeat_length.
  destruct (calc_loop_inv _ _ _ _ _ _ _ L0 EF) as (os & cs & L1 & L2 & HH).
  destruct (calc_loop use_c fuel t w _ _ os cs L0 L1 L2 HH) as (vel1 & EF' & L3 & N3).
  assert (vel1 = vel0) by congruence. subst vel1.
  exists w, dvdt, curv, os, cs. split; auto. split; [exists i1, i2; auto|]. split; auto. split; auto. split; auto.
  split; [rewrite !length_map2; rewrite ?map_length; auto; rewrite length_map2; rewrite ?map_length; auto|].
  intros i ti Hi.
  assert (nth_error (repeat 0 (length t)) i = Some 0) as N0.
  { apply nth_error_repeat. apply nth_error_Some. congruence. }
  specialize (N3 i 0 N0). rewrite Rplus_0_l in N3.
  apply nth_map2; [apply nth_map2; auto|].
  - apply (map_nth_error (fun x => dvdt * (x - m_time_base m))); auto.
  - apply (map_nth_error (fun x => curv * (x - m_time_base m) ^ 2)); auto.
Qed.

(** the converse: the call succeeds when each planet's velocity can be computed *)
Lemma call_succeeds use_c fuel m t pn w dvdt curv :
  v_to_synth (ps_basis (m_params m)) (v_vector (m_vector m)) false None = Ok w ->
  trend_rows m dvdt curv ->
  (forall n, In n (planets_of (m_params m) pn) -> exists o x, orbel_at w n = Ok o /\ rv_drive use_c fuel t o = Ok x) ->
  exists vel, rvmodel_call use_c fuel m t pn = Ok vel.
Proof.
  intros EW (i1 & i2 & E1 & G1 & E2 & G2) H.
  unfold rvmodel_call, standard_rv_calc. fold (planets_of (m_params m) pn). rewrite EW. cbn [bind].
  unfold dget_res. rewrite E1, E2. cbn [bind].
  assert (forall vel, length vel = length t -> exists vel', for_each (planets_of (m_params m) pn)
    (fun vel n => do o <- orbel_at w n; do x <- rv_drive use_c fuel t o; add_np vel x) vel = Ok vel') as Q.
  { induction (planets_of (m_params m) pn) as [|n r IH]; intros vel Hl; [exists vel; reflexivity|].
    destruct (H n) as (o & x & A & B); [now left|]. cbn [for_each]. rewrite A. cbn [bind]. rewrite B. cbn [bind].
    pose proof (rv_drive_length _ _ _ _ _ B). rewrite add_np_ok by congruence. cbn [bind]. apply IH.
    - intros; apply H; now right.
    - rewrite length_map2; congruence. }
  destruct (Q (repeat 0 (length t))) as [vel' ->]; [apply repeat_length|]. cbn [bind].
  rewrite G1. cbn [bind]. rewrite G2. cbn [bind]. eauto.
Qed.

(** time by time *)
Lemma call_pointwise use_c fuel m t pn vel i ti :
  rvmodel_call use_c fuel m t pn = Ok vel -> nth_error t i = Some ti ->
  exists v, rvmodel_call use_c fuel m [ti] pn = Ok [v] /\ nth_error vel i = Some v.
Proof.
  intros HC Hi. destruct (superposition _ _ _ _ _ _ HC) as (w & dvdt & curv & os & cs & EW & TR & L1 & L2 & HH & LV & NV).
  assert (forall j n, nth_error (planets_of (m_params m) pn) j = Some n ->
            exists o x x1 y, nth_error os j = Some o /\ nth_error cs j = Some (npelems x) /\ orbel_at w n = Ok o /\
              rv_drive use_c fuel t o = Ok x /\ rv_drive use_c fuel [ti] o = Ok x1 /\ npelems x1 = [y] /\
              nth_error (npelems x) i = Some y) as P.
  { intros j n Hj. assert (j < length (planets_of (m_params m) pn))%nat as Hjl by (apply nth_error_Some; congruence).
    destruct (nth_error os j) as [o|] eqn:Eo; [|apply nth_error_None in Eo; lia].
    destruct (nth_error cs j) as [c|] eqn:Ec; [|apply nth_error_None in Ec; lia].
    destruct (HH j n o c Hj Eo Ec) as (A & x & B & C).
    destruct (rv_drive_single _ _ _ _ _ _ _ B Hi) as (x1 & y & D1 & D2 & D3).
    exists o, x, x1, y. rewrite C. repeat split; auto. congruence. }
  destruct (call_succeeds use_c fuel m [ti] pn w dvdt curv EW TR) as [vel1 HC1].
  { intros n Hn. apply In_nth_error in Hn. destruct Hn as [j Hj]. destruct (P j n Hj) as (o & x & x1 & y & ? & ? & ? & ? & ? & ?).
    eauto. }
  destruct (superposition _ _ _ _ _ _ HC1) as (w' & dvdt' & curv' & os' & cs' & EW' & TR' & L1' & L2' & HH' & LV' & NV').
  assert (w' = w) by congruence. subst w'.
  assert (dvdt' = dvdt /\ curv' = curv) as [-> ->].
  { destruct TR as (i1 & i2 & ? & ? & ? & ?), TR' as (i1' & i2' & ? & ? & ? & ?).
    assert (i1' = i1) by congruence. assert (i2' = i2) by congruence. subst. split; congruence. }
  specialize (NV' 0%nat ti eq_refl). specialize (NV i ti Hi).
  destruct vel1 as [|v1 [|? ?]]; try discriminate. cbn in NV'. inversion NV'; subst v1; clear NV'.
  eexists. split; [exact HC1|]. rewrite NV. do 3 f_equal.
  clear NV HC HC1 LV LV'.
  assert (forall j n, nth_error (planets_of (m_params m) pn) j = Some n ->
     exists c c' y, nth_error cs j = Some c /\ nth_error cs' j = Some c' /\ nth i c 0 = y /\ nth 0 c' 0 = y) as Q.
  { intros j n Hj. destruct (P j n Hj) as (o & x & x1 & y & A & B & C & D & E & F & G).
    assert (j < length (planets_of (m_params m) pn))%nat as Hjl by (apply nth_error_Some; congruence).
    destruct (nth_error os' j) as [o'|] eqn:Eo; [|apply nth_error_None in Eo; lia].
    destruct (nth_error cs' j) as [c'|] eqn:Ec; [|apply nth_error_None in Ec; lia].
    destruct (HH' j n o' c' Hj Eo Ec) as (A' & x' & B' & C').
    assert (o' = o) by congruence. subst o'. assert (x' = x1) by congruence. subst x'.
    exists (npelems x), c', y. repeat split; auto.
    - now apply nth_error_nth.
    - rewrite <- C', F. reflexivity. }
  clear P HH HH' L1 L1'. revert cs cs' L2 L2' Q. induction (planets_of (m_params m) pn) as [|n r IH]; intros cs cs' L2 L2' Q.
  - destruct cs, cs'; try discriminate. reflexivity.
  - destruct cs as [|c cs], cs' as [|c' cs']; try discriminate. cbn [sum_at fold_right].
    destruct (Q 0%nat n eq_refl) as (c0 & c0' & y & A & B & C & D). cbn in A, B. inversion A; inversion B; subst c0 c0'.
    rewrite C, D. f_equal. apply IH; cbn in *; try lia. intros j m0 Hj. apply (Q (S j) m0 Hj).
Qed.

(** a planet with K = 0 contributes nothing *)
Lemma zero_k use_c fuel t o x : o_k o = 0 -> rv_drive use_c fuel t o = Ok x -> forall y, In y (npelems x) -> y = 0.
Proof.
  intros Hk H y Hy. apply (rv_drive_bound _ _ _ _ _ H) in Hy. rewrite Hk, Rabs_R0, Rmult_0_l in Hy.
  destruct (Req_dec y 0) as [|N]; auto. pose proof (Rabs_pos_lt y N). lra.
Qed.
