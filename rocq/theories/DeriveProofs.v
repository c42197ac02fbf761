(** Proofs for C66. *)
From Coq Require Import ZArith Reals String Arith Bool Lia Lra List.
From Verif Require Import Py PyFloat PyFacts PyFloatFacts Params ParamsProofs ParamsSpec Basis BasisProofs BasisConv BasisModel BasisThms VectorProofs Mass MassProofs
  Stats PostProc PostProcSpec PostProcProofs PostProcThms Derive DeriveSpec.
Import ListNotations.
Open Scope R_scope.
Open Scope string_scope.

(** ** lists *)
Lemma zip2_length f l : forall l', length l = length l' -> length (zip2 f l l') = length l.
Proof. induction l; intros [|b l']; cbn; intro H; try discriminate; auto. Qed.
Lemma zip2_nth f l : forall l' i, length l = length l' -> (i < length l)%nat -> nth i (zip2 f l l') 0 = f (nth i l 0) (nth i l' 0).
Proof. induction l; intros [|b l'] [|i]; cbn; intros; try lia; auto; apply IHl; lia. Qed.
Lemma mrows_length k : forall per m e, length per = length k -> length m = length k -> length e = length k -> length (mrows k per m e) = length k.
Proof. induction k; intros [|? per] [|? m] [|? e]; cbn; intros; try lia; auto; f_equal; apply IHk; lia. Qed.
Lemma mrows_nth k : forall per m e i d, length per = length k -> length m = length k -> length e = length k -> (i < length k)%nat ->
  nth i (mrows k per m e) d = mkMrow (nth i k 0) (nth i per 0) (nth i m 0) (nth i e 0).
Proof. induction k; intros [|? per] [|? m] [|? e] [|i] d; cbn; intros; try lia; auto; apply IHk; lia. Qed.
Lemma reflect_length l : length (reflect l) = length l.
Proof. apply map_length. Qed.
Lemma reflect_nth l i : (i < length l)%nat -> nth i (reflect l) 0 = Rabs (nth i l 0).
Proof.
  intro H. unfold reflect. set (f := fun m => if rleb m 0 then Rabs m else m). rewrite (nth_indep _ 0 (f 0)) by now rewrite map_length. rewrite (map_nth f).
  unfold f, rleb. destruct (Rle_dec (nth i l 0) 0); [reflexivity|]. symmetry. apply Rabs_right. lra.
Qed.

(** ** one sample: light planets *)
Lemma light_law c x : uconst_ok c -> row_ok x ->
  semi_amplitude c "earth" (msini_light c x * c_mjup c / c_mearth c) (r_P x) (r_M x) (r_e x) = Ok (r_K x) /\ 0 < msini_light c x.
Proof.
  intros (C1 & C2 & C3 & _) (X1 & X2 & X3 & X4). destruct x as [K P M e]. cbn [r_K r_P r_M r_e] in *.
  assert (0 < 1 - e ^ 2) as H1 by nra. assert (0 < day_to_year P) as HY by (unfold day_to_year; apply Rdiv_lt_0_compat; lra).
  assert (0 < K_0) as HK by (unfold K_0; lra). unfold msini_light. cbn [r_K r_P r_M r_e].
  replace (M * c_msun c / c_msun c) with M by (field; lra).
  pose proof (pw_half _ H1) as A. pose proof (pw_opp M (2 / 3) X3) as B. pose proof (pw_opp (day_to_year P) (1 / 3) HY) as D.
  split.
  - unfold semi_amplitude. change (in_mjup c "earth") with (Ok (c_mearth c / c_mjup c)). cbn [bind]. f_equal.
    set (p := pw (1 - e ^ 2) (- (1 / 2))) in *. set (q := pw M (2 / 3)) in *. set (q' := pw M (- (2 / 3))) in *.
    set (y := pw (day_to_year P) (1 / 3)) in *. set (y' := pw (day_to_year P) (- (1 / 3))) in *. set (s := sqrt (1 - e ^ 2)) in *.
    replace (K_0 * p * (K / K_0 * s * q * y * c_mjup c / c_mearth c * (c_mearth c / c_mjup c)) * y' * q') with (K * (p * s) * (q * q') * (y * y')) by (field; lra).
    rewrite A, B, D. ring.
  - repeat apply Rmult_lt_0_compat; try apply pw_pos; [exact X1|now apply Rinv_0_lt_compat|now apply sqrt_lt_R0].
Qed.
Lemma semi_inj c m m' P M e K : uconst_ok c -> 0 < P -> 0 < M -> 0 <= e < 1 ->
  semi_amplitude c "earth" m P M e = Ok K -> semi_amplitude c "earth" m' P M e = Ok K -> m = m'.
Proof.
  intros (C1 & C2 & C3 & _) HP HM He. unfold semi_amplitude. change (in_mjup c "earth") with (Ok (c_mearth c / c_mjup c)). cbn [bind].
  intros [= E1] [= E2]. pose proof (pw_pos (1 - e ^ 2) (- (1 / 2))) as A. pose proof (pw_pos (day_to_year P) (- (1 / 3))) as B. pose proof (pw_pos M (- (2 / 3))) as D.
  assert (0 < K_0) as HK by (unfold K_0; lra).
  set (p := pw (1 - e ^ 2) (- (1 / 2))) in *. set (y := pw (day_to_year P) (- (1 / 3))) in *. set (q := pw M (- (2 / 3))) in *.
  assert (0 < K_0 * p * (c_mearth c / c_mjup c) * y * q) as Hf.
  { assert (0 < c_mearth c / c_mjup c) by now apply Rdiv_lt_0_compat. assert (0 < K_0 * p) by nra. assert (0 < K_0 * p * (c_mearth c / c_mjup c)) by now apply Rmult_lt_0_compat.
    assert (0 < K_0 * p * (c_mearth c / c_mjup c) * y) by now apply Rmult_lt_0_compat. now apply Rmult_lt_0_compat. }
  change (e * (e * 1)) with (e ^ 2) in E1, E2. fold p in E1, E2.
  apply (Rmult_eq_reg_l (K_0 * p * (c_mearth c / c_mjup c) * y * q)); [|lra]. transitivity K; [rewrite <- E1; ring|rewrite <- E2; ring].
Qed.
Lemma heavy_massive c x : uconst_ok c -> row_ok x -> (heavy c x = true <-> massive c x).
Proof.
  intros C X. destruct (light_law c x C X) as [L P]. pose proof C as (C1 & C2 & C3 & _). pose proof X as (X1 & X2 & X3 & X4). unfold heavy, massive.
  assert (msini_light c x * c_mjup c / c_msun c / (r_M x * c_msun c / c_msun c) = msini_light c x * c_mjup c / c_mearth c * c_mearth c / (r_M x * c_msun c)) as -> by (field; lra).
  split.
  - intro H. apply rltb_t in H. eauto.
  - intros (m & Hm & Hg). rewrite (semi_inj _ _ _ _ _ _ _ C X2 X3 X4 Hm L) in Hg. unfold rltb. now destruct (Rlt_dec _ _).
Qed.

(** ** a column of masses *)
Lemma Msini_earth root c l ms : Msini root c "earth" l = Ok ms -> uconst_ok c -> Forall row_ok l ->
  length ms = length l /\ forall i d, (i < length l)%nat -> let x := nth i l d in let m := nth i ms 0 in
    ((forall x, In x l -> ~ massive c x) -> semi_amplitude c "earth" m (r_P x) (r_M x) (r_e x) = Ok (r_K x) /\ 0 < m) /\
    ((exists x, In x l /\ massive c x) -> (forall x, In x l -> root_finds c root x) -> two_body c x (m * c_mearth c) /\ 0 < m).
Proof.
  intros E C F. pose proof C as (C1 & C2 & C3 & _). unfold Msini in E. cbn [lower String.eqb] in E. change (String.eqb (lower "earth") "jupiter") with false in E.
  change (String.eqb (lower "earth") "earth") with true in E. cbv iota in E. injection E as <-.
  assert (forall x, In x l -> row_ok x) as FI by (apply Forall_forall; exact F).
  split; [rewrite map_length; destruct (existsb _ _); rewrite ?map_length; reflexivity|].
  intros i d Hi x m.
  assert (In x l) as Hx by (apply nth_In; exact Hi). split.
  - intro NM. assert (existsb (heavy c) l = false) as EX.
    { destruct (existsb (heavy c) l) eqn:Q; [|reflexivity]. apply existsb_exists in Q. destruct Q as (y & Hy & Hh). apply heavy_massive in Hh; auto. destruct (NM y Hy Hh). }
    assert (m = msini_light c x * c_mjup c / c_mearth c) as ->.
    { unfold m. rewrite EX, map_map. set (f := fun y => msini_light c y * c_mjup c / c_mearth c). rewrite (nth_indep _ 0 (f d)) by now rewrite map_length. now rewrite (map_nth f). }
    destruct (light_law c x C (FI x Hx)) as [A B]. split; [exact A|]. apply Rdiv_lt_0_compat; [nra|exact C3].
  - intros (y & Hy & Hm) RF. assert (existsb (heavy c) l = true) as EX by (apply existsb_exists; exists y; split; [auto|apply heavy_massive; auto]).
    assert (m = root (msini_func c x) (c_mjup c) / c_mjup c * c_mjup c / c_mearth c) as ->.
    { unfold m. rewrite EX, !map_map. set (f := fun y => root (msini_func c y) (c_mjup c) / c_mjup c * c_mjup c / c_mearth c).
      rewrite (nth_indep _ 0 (f d)) by now rewrite map_length. now rewrite (map_nth f). }
    destruct (RF x Hx) as [R1 R2]. set (r := root (msini_func c x) (c_mjup c)) in *.
    replace (r / c_mjup c * c_mjup c / c_mearth c * c_mearth c) with r by (field; lra). split; [apply func_two_body; auto|].
    replace (r / c_mjup c * c_mjup c / c_mearth c) with (r / c_mearth c) by (field; lra). now apply Rdiv_lt_0_compat.
Qed.

(** ** fixed parameters *)
Lemma held_unique h d k x y : held_at h d k x -> held_at h d k y -> x = y.
Proof. intros (p & A & _ & B) (q & A' & _ & B'). congruence. Qed.
Lemma dict_step_inv h d t par t' : dict_step h d t par = Ok t' -> t_len t' = t_len t /\
  ((exists x, held_at h d par x /\ t_cols t' = dset (t_cols t) par (repeat x (t_len t))) \/ ((forall x, ~ held_at h d par x) /\ t' = t)).
Proof.
  unfold dict_step. destruct (get_param h d par) as [p|] eqn:E; [|discriminate]. unfold not_varied. destruct (p_vary p) as [[|]|] eqn:V; cbn [negb].
  - intros [= <-]. split; [auto|]. right. split; [|auto]. intros x (q & A & B & _). congruence.
  - destruct (p_value p) as [x|] eqn:X; [|discriminate]. intros [= <-]. split; [auto|]. left. exists x. split; [|auto]. exists p. repeat split; congruence.
  - destruct (p_value p) as [x|] eqn:X; [|discriminate]. intros [= <-]. split; [auto|]. left. exists x. split; [|auto]. exists p. repeat split; congruence.
Qed.
Lemma dict_loop h d ks : forall t t1, for_each ks (dict_step h d) t = Ok t1 ->
  t_len t1 = t_len t /\ forall k,
    (forall x, In k ks -> held_at h d k x -> dget (t_cols t1) k = Some (repeat x (t_len t))) /\
    ((~ In k ks \/ forall x, ~ held_at h d k x) -> dget (t_cols t1) k = dget (t_cols t) k).
Proof.
  induction ks as [|a ks IH]; intros t t1 E; cbn in E.
  - injection E as <-. split; [reflexivity|]. intro k. split; [intros ? []|auto].
  - destruct (dict_step h d t a) as [t0|] eqn:Ea; [|discriminate]. cbn in E. destruct (dict_step_inv _ _ _ _ _ Ea) as [L0 C0].
    destruct (IH t0 t1 E) as [L1 H1]. split; [congruence|]. intro k. destruct (H1 k) as [A B]. split.
    + intros x Hk F. destruct (in_dec string_dec k ks) as [Hin|Hn]; [rewrite (A x Hin F); congruence|].
      destruct Hk as [<-|]; [|easy]. rewrite B by auto. destruct C0 as [(y & Fy & ->)|[N _]]; [|destruct (N x F)].
      rewrite dget_dset_same. now rewrite (held_unique _ _ _ _ _ F Fy).
    + intro Hk. rewrite B.
      * destruct C0 as [(y & Fy & ->)|[_ ->]]; [|reflexivity]. apply dget_dset_other. intros ->. destruct Hk as [Hk|Hk]; [apply Hk; now left|apply (Hk y Fy)].
      * destruct Hk as [Hk|Hk]; [left; intro; apply Hk; now right|now right].
Qed.
Lemma dict_fill_samples h d t t1 k col : fill_dict h d t = Ok t1 -> (dget (t_cols t1) k = Some col <-> dict_samples h d t k col).
Proof.
  intro E. destruct (dict_loop h d (dkeys d) t t1 E) as [L H]. destruct (H k) as [A B].
  destruct (in_dec string_dec k (dkeys d)) as [Hk|Hk].
  - destruct (for_each_inv _ _ _ _ E k Hk) as (a & b & Eab). destruct (dict_step_inv _ _ _ _ _ Eab) as [_ [(x & F & _)|[N _]]].
    + rewrite (A x Hk F). split.
      * intros [= <-]. left. eauto.
      * intros [(y & Fy & ->)|[N _]]; [now rewrite (held_unique _ _ _ _ _ F Fy)|destruct (N x F)].
    + rewrite B by auto. split; [intro; right; auto|]. intros [(x & F & _)|[_ Q]]; [destruct (N x F)|exact Q].
  - rewrite B by auto. assert (forall x, ~ held_at h d k x) as N.
    { intros x (p & Q & _). apply Hk. unfold get_param in Q. destruct (dget d k) eqn:Z; [eapply dget_key; eauto|discriminate]. }
    split; [intro; right; auto|]. intros [(x & F & _)|[_ Q]]; [destruct (N x F)|exact Q].
Qed.

(** ** the elements of each sample *)
Lemma derive_elements h ps chains b names t synth : ParamsSpec.params_ok h ps b names ->
  fill_dict h (ps_items ps) chains = Ok t -> to_synth_table (b_name (ps_basis ps)) (b_num (ps_basis ps)) t = Ok synth ->
  forall n p, (1 <= n <= ps_num ps)%nat -> In p FIVE -> exists col, dget synth (key p n) = Some col /\ length col = t_len chains /\
    forall i, (i < t_len chains)%nat -> exists el, sample_elements h ps chains b names n i el /\ nth i col 0 = meaning el p /\
      el = els b (fun q => match entry t i n q with Ok x => x | Err _ => 0 end).
Proof.
  intros OK E1 E2. rewrite (po_name _ _ _ _ OK), (po_num _ _ _ _ OK) in E2. set (d := ps_items ps) in *.
  destruct (synth_loop b t (seq 1 (ps_num ps)) (seq_NoDup _ _) _ _ E2) as [C1 C2].
  assert (t_len t = t_len chains) as LT by (destruct (dict_loop h d _ _ _ E1); auto).
  intros n p Hn Hp. destruct (C1 n p) as (col & D1 & D2 & D3); [apply in_seq; lia|exact Hp|]. exists col. split; [exact D1|]. split; [congruence|].
  intros i Hi. destruct (D3 i) as (el & F1 & F2); [lia|].
  set (vals := fun q => match entry t i n q with Ok x => x | Err _ => 0 end).
  assert (forall q, In q names -> exists c, dict_samples h d chains (key q n) c /\ vals q = nth i c 0 /\ entry t i n q = Ok (vals q)) as HC.
  { intros q' Hq'. assert (exists c, dget (t_cols t) (key q' n) = Some c) as [c Hc].
    { destruct (dget (t_cols t) (key q' n)) eqn:Q; [eauto|]. exfalso.
      assert (entry t i n q' = Err (KeyError (key q' n))) as Er by (unfold entry, dget_res; now rewrite Q).
      assert (exists e, synth_of b (entry t i n) = Err e) as [e Ee]; [|congruence].
      clear - Er Hq' OK. pose proof (po_fit _ _ _ _ OK) as HF. clear OK.
      fit_cases HF; unfold synth_of; eval_strings; cbn in Hq';
        repeat (destruct Hq' as [<-|Hq']; [repeat (rewrite ?Er; cbn [bind]; try (eexists; reflexivity); match goal with |- context [bind ?m _] => destruct m; cbn [bind]; [|eexists; reflexivity] end)|]); try easy. }
    exists c. split; [now apply (dict_fill_samples h d _ _ _ _ E1)|]. unfold vals, entry, dget_res. rewrite Hc. cbn. auto. }
  exists (els b vals). split; [|split; [|reflexivity]].
  - exists vals. split; [|reflexivity]. intros q' Hq'. destruct (HC q' Hq') as (c & A & B & _). eauto.
  - rewrite F2. destruct (els_get b names vals p) as [Y1 Y2]; [apply OK|exact Hp|].
    assert (synth_of b (entry t i n) = synth_of b (fun q => Ok (vals q))) as Z.
    { eapply synth_of_names; [apply OK|]. intros q' Hq'. destruct (HC q' Hq') as (_ & _ & _ & X). exact X. }
    rewrite <- Y2. congruence.
Qed.
