(** C12: the model built from a converted parameter set. *)
From Coq Require Import Reals String Ascii Arith ZArith Bool Lia Lra List.
From Verif Require Import Py PyFacts Params ParamsProofs ParamsSpec VectorProofs Kepler KeplerSpec RvProofs RvTerm Basis BasisNum
  BasisProofs BasisConv VConv BasisModel BasisThms RVModel RVModelProofs.
Import ListNotations.
Open Scope string_scope.
#[local] Arguments unkey : simpl never.
#[local] Arguments key : simpl never.

Definition orb (el : elements) : orbel := mkOrbel (el_per el) (el_tp el) (el_e el) (el_w el) (el_k el).

Lemma nth_error_ext {A} (l l' : list A) : (forall i, nth_error l i = nth_error l' i) -> l = l'.
Proof.
  revert l'. induction l as [|a l IH]; intros [|b l'] H; auto; try (specialize (H 0%nat); discriminate).
  f_equal; [specialize (H 0%nat); now inversion H|]. apply IH. intro i. apply (H (S i)).
Qed.

(** elements that describe the same orbit give the same computed velocities *)
Lemma rv_drive_recovered use_c fuel ts names el el' :
  in_domain el -> recovered names el el' -> (0 < el_e el \/ cos ((PI / 2 - el_w el) / 2) <> 0)%R ->
  rv_drive use_c fuel ts (orb el') = rv_drive use_c fuel ts (orb el).
Proof.
  intros (Hp & Hk & He) [(S1 & S2 & S3) _ RE RO] HC.
  destruct (Req_dec (el_e el) 0) as [H0|H0].
  - specialize (RO HC). destruct RO as (_ & _ & _ & RO).
    destruct (rv_drive_circular use_c fuel ts (orb el) H0) as (l & A1 & A2 & A3).
    destruct (rv_drive_circular use_c fuel ts (orb el')) as (l' & B1 & B2 & B3); [cbn; congruence|].
    rewrite A1, B1. do 2 f_equal. apply nth_error_ext. intro i.
    destruct (nth_error ts i) as [t|] eqn:Et.
    + destruct (A3 i t Et) as (x & Hx & Rx), (B3 i t Et) as (y & Hy & Ry). rewrite Hx, Hy. f_equal.
      cbn in Rx, Ry. rewrite <- H0 in Rx. rewrite <- H0, <- S2 in Ry. apply RO in Rx.
      assert (0 <= el_e el' < 1)%R as He' by (rewrite S2; lra). exact (is_rv_unique _ _ _ _ _ _ _ _ He' Ry Rx).
    + apply nth_error_None in Et. rewrite (proj2 (nth_error_None l' i)), (proj2 (nth_error_None l i)); auto; lia.
  - destruct RE as (E1 & E2 & E3 & E4 & E5 & E6); [lra|].
    destruct (same_angle _ _ E5 E6) as [n Hn].
    rewrite <- (rv_drive_om use_c fuel ts (orb el) n). f_equal. unfold orb. cbn. rewrite Hn. congruence.
Qed.

(** ** rows of the trend parameters *)
Lemma index_at_trend num (keys : list string) k : NoDup keys ->
  (dget (init_index_dict num keys) k = Some (5 * num)%nat -> k = "dvdt") /\
  (dget (init_index_dict num keys) k = Some (1 + 5 * num)%nat -> k = "curv").
Proof.
  intro ND. split; intro H; apply index_inv in H; auto; inversion H; subst; auto;
    try (pose proof (column_lt p)); lia.
Qed.

Lemma trend_row h (d : dict nat) num k i v0 : NoDup (dkeys d) ->
  dget (init_index_dict num (dkeys d)) k = Some i ->
  (forall k', dget (init_index_dict num (dkeys d)) k' = Some i -> k' = k) ->
  (i < length v0)%nat -> nth_error v0 i = Some zero_row ->
  nth_error (fold_left (fill_step (dget (init_index_dict num (dkeys d))) (row_at h d)) (dkeys d) v0) i =
  Some (row_at h d k).
Proof.
  intros ND Hk Hu Hi H0. destruct (in_dec string_dec k (dkeys d)) as [Hin|Hin].
  - apply fill_in with (k := k); auto.
  - rewrite fill_out.
    + rewrite H0. unfold row_at, get_param. rewrite (proj2 (dget_none d k) Hin). reflexivity.
    + intros k' Hk' E. apply Hin. rewrite <- (Hu k'); auto.
Qed.

Lemma vector_trend h ps b names vec :
  params_ok h ps b names ->
  (forall k, In k (dkeys (ps_items ps)) -> storable h (ps_items ps) k) ->
  vector_init h ps = Ok vec ->
  v_indices vec = init_index_dict (ps_num ps) (dkeys (ps_items ps)) /\
  nth_error (v_vector vec) (5 * ps_num ps) = Some (row_at h (ps_items ps) "dvdt") /\
  nth_error (v_vector vec) (1 + 5 * ps_num ps) = Some (row_at h (ps_items ps) "curv").
Proof.
  intros [HF HN Hnum HL ND HH] HST.
  set (d := ps_items ps) in *. set (num := ps_num ps) in *.
  set (idx := init_index_dict num (dkeys d)).
  pose proof (rows_enough_w num b names d HF ND HH) as HR.
  destruct (names_exist num b names d HF ND HH) as [nm Enm].
  set (v0 := repeat zero_row (length (dkeys d) + n_missing d)).
  assert (length v0 = (length (dkeys d) + n_missing d)%nat) as L0 by apply repeat_length.
  assert (dict_to_vector h d idx = Ok (fold_left (fill_step (dget idx) (row_at h d)) (dkeys d) v0)) as ED.
  { apply dv_fill. intros k i Hk Ei. split; auto. apply index_range_w in Ei; auto. fold v0. lia. }
  unfold vector_init. fold d num. fold idx. rewrite ED. cbn [bind]. fold idx in Enm. rewrite Enm. cbn [bind].
  intro H; inversion H; subst vec; clear H. cbn [v_indices v_vector]. split; auto. split.
  - apply trend_row; auto; try lia.
    + apply index_dvdt.
    + intros k' E. now apply (index_at_trend num (dkeys d) k' ND).
    + apply nth_error_repeat. lia.
  - apply trend_row; auto; try lia.
    + apply index_curv.
    + intros k' E. now apply (index_at_trend num (dkeys d) k' ND).
    + apply nth_error_repeat. lia.
Qed.

(** ** velocities from elements *)
Lemma vgetz_nat v n : vgetz v (Z.of_nat n) = vget v n.
Proof.
  unfold vgetz. replace (Z.of_nat n <? 0)%Z with false by (symmetry; apply Z.ltb_ge; lia).
  cbv zeta. replace (Z.of_nat n <? 0)%Z with false by (symmetry; apply Z.ltb_ge; lia). now rewrite Nat2Z.id.
Qed.

Lemma orbel_at_five w n el : five w (5 * n) (el_at el) -> orbel_at w (Z.of_nat (S n)) = Ok (orb el).
Proof.
  intro H. apply five_vget in H. destruct H as (A0 & A1 & A2 & A3 & A4). unfold orbel_at.
  replace (-5 + 5 * Z.of_nat (S n))%Z with (Z.of_nat (5 * n)) by lia.
  replace (-4 + 5 * Z.of_nat (S n))%Z with (Z.of_nat (1 + 5 * n)) by lia.
  replace (-3 + 5 * Z.of_nat (S n))%Z with (Z.of_nat (2 + 5 * n)) by lia.
  replace (-2 + 5 * Z.of_nat (S n))%Z with (Z.of_nat (3 + 5 * n)) by lia.
  replace (-1 + 5 * Z.of_nat (S n))%Z with (Z.of_nat (4 + 5 * n)) by lia.
  rewrite !vgetz_nat, A0, A1, A2, A3, A4. reflexivity.
Qed.

Lemma for_each_ext {A S} (l : list A) (f g : S -> A -> res S) s :
  (forall s x, In x l -> f s x = g s x) -> for_each l f s = for_each l g s.
Proof.
  revert s. induction l as [|a l IH]; intros s H; cbn; auto.
  rewrite H by (now left). destruct (g s a); cbn; auto. apply IH. intros; apply H; now right.
Qed.

(** planet selections that exist *)
Definition valid_planet (num : nat) (pn : option Z) : Prop :=
  match pn with None => True | Some n => (1 <= n <= Z.of_nat num)%Z end.

Lemma planets_valid ps pn n : valid_planet (ps_num ps) pn -> In n (planets_of ps pn) ->
  exists m, (m < ps_num ps)%nat /\ n = Z.of_nat (S m).
Proof.
  destruct pn as [z|]; cbn [planets_of valid_planet].
  - intros H [<-|[]]. exists (Z.to_nat z - 1)%nat. split; lia.
  - intros _ H. apply in_map_iff in H. destruct H as (m & <- & Hm). apply in_seq in Hm.
    exists (m - 1)%nat. split; [lia|]. f_equal. lia.
Qed.

(** the superposition, as a function of the elements *)
Definition planets_rv (use_c : bool) (fuel : nat) (t : list R) (E : nat -> elements) (planets : list Z) : res (list R) :=
  for_each planets (fun vel n => do x <- rv_drive use_c fuel t (orb (E (Z.to_nat n - 1)%nat)); add_np vel x)
           (repeat 0%R (length t)).

Lemma standard_calc_elements use_c fuel t ps v pn w E :
  v_to_synth (ps_basis ps) v false None = Ok w ->
  (forall n, (n < ps_num ps)%nat -> five w (5 * n) (el_at (E n))) -> valid_planet (ps_num ps) pn ->
  standard_rv_calc use_c fuel t ps v pn = planets_rv use_c fuel t E (planets_of ps pn).
Proof.
  intros EW HE HV. unfold standard_rv_calc, planets_rv. rewrite EW. cbn [bind]. fold (planets_of ps pn).
  apply for_each_ext. intros s n Hn. destruct (planets_valid ps pn n HV Hn) as (m & Hm & ->).
  rewrite (orbel_at_five w m (E m)) by auto. cbn [bind]. do 5 f_equal. lia.
Qed.

Lemma planets_rv_ext use_c fuel t E E' num planets :
  (forall n, In n planets -> exists m, (m < num)%nat /\ n = Z.of_nat (S m)) ->
  (forall n, (n < num)%nat -> rv_drive use_c fuel t (orb (E' n)) = rv_drive use_c fuel t (orb (E n))) ->
  planets_rv use_c fuel t E' planets = planets_rv use_c fuel t E planets.
Proof.
  intros HP H. apply for_each_ext. intros s n Hn. destruct (HP n Hn) as (m & Hm & ->).
  replace (Z.to_nat (Z.of_nat (S m)) - 1)%nat with m by lia. now rewrite H.
Qed.

(** ** C12 *)
Lemma model_of_set h ps b names (E : nat -> elements) vec :
  params_ok h ps b names -> vector_init h ps = Ok vec ->
  (forall n, (n < ps_num ps)%nat -> five (v_vector vec) (5 * n) (fun j => meaning (E (S n)) (nth j names ""))) ->
  exists w, v_to_synth (ps_basis ps) (v_vector vec) false None = Ok w /\
    forall n, (n < ps_num ps)%nat -> five w (5 * n) (el_at (els b (meaning (E (S n))))).
Proof.
  intros OK HV H. pose proof (po_fit _ _ _ _ OK) as HB.
  destruct (v_to_synth_main b names (ps_basis ps) (v_vector vec) false None
      (fun n j => meaning (E (S n)) (nth j names "")) (fun n => els b (meaning (E (S n)))) HB (po_name _ _ _ _ OK))
    as (v' & C1 & C2 & C3 & C4).
  { intros n Hn. apply H. now rewrite <- (po_num _ _ _ _ OK). }
  { intros n Hn. rewrite <- (els_ok b names (meaning (E (S n))) HB). eapply synth_of_names; eauto.
    intros p Hp. unfold row_getter. f_equal. eapply row_names; eauto. }
  exists v'. split; auto. intros n Hn. apply C3. now rewrite (po_num _ _ _ _ OK).
Qed.

Lemma recovered_domain names el el' : recovered names el el' -> in_domain el -> in_domain el'.
Proof. intros [(A & B & C) _ _ _]. unfold in_domain. rewrite A, B, C. auto. Qed.

(** what convert leaves, for a pair in CONVERTIBLE *)
Lemma convertible_model h ps b names b' names' (E : nat -> elements) :
  params_ok h ps b names -> strict ps names -> flags_ok h ps -> In (b', names') FIT_BASES ->
  In (b, b') CONVERTIBLE ->
  (forall n, (1 <= n <= ps_num ps)%nat -> in_domain (E n) /\ holds h ps names n (meaning (E n))) ->
  exists vec w h' ps' out vec' w' E1 E2, vector_init h ps = Ok vec /\
    v_to_synth (ps_basis ps) (v_vector vec) false None = Ok w /\
    convert h ps b' = Ok (h', ps', Some out) /\ vector_init h' out = Ok vec' /\
    v_to_synth (ps_basis out) (v_vector vec') false None = Ok w' /\
    ps_num out = ps_num ps /\ params_ok h' out b' names' /\
    (forall k, In k (dkeys (ps_items out)) -> storable h' (ps_items out) k) /\
    (forall k, non_orbital (ps_num ps) k -> get_param h' (ps_items out) k = get_param h (ps_items ps) k) /\
    forall n, (n < ps_num ps)%nat ->
      five w (5 * n) (el_at (E1 n)) /\ five w' (5 * n) (el_at (E2 n)) /\
      recovered names (E (S n)) (E1 n) /\ recovered names' (E1 n) (E2 n).
Proof.
  intros OK ST FL HF' HC H. pose proof (po_fit _ _ _ _ OK) as HB.
  destruct (strict_vector h ps b names (fun n => meaning (E n)) OK ST FL) as (vec & V1 & V2).
  { intros n Hn. now apply H. }
  destruct (model_of_set h ps b names E vec OK V1 V2) as (w & W1 & W2).
  destruct (convert_class h ps b names b' names' (fun n => meaning (E n)) (fun n => els b (meaning (E n))) OK ST FL HF')
    as (h' & out & A1 & A2 & A3 & A4 & A5 & A6 & A7).
  { intros n Hn. now apply H. }
  { intros n Hn. eapply els_ok; eauto. }
  destruct (convert_frame h ps b names b' names' (fun n => meaning (E n)) OK HF') as (hh & cc & oo & F1 & _ & _ & _ & _ & _ & F2 & _).
  { intros n Hn. now apply H. }
  rewrite A1 in F1. inversion F1; subst hh cc oo; clear F1.
  assert (forall n, (1 <= n <= ps_num ps)%nat -> usable names' (projv h' n (ps_items out)) = true) as U.
  { intros n Hn. specialize (A5 n Hn). unfold classify in A5. rewrite (proj2 (pair_in_spec b b' CONVERTIBLE) HC) in A5. auto. }
  destruct (usable_vector h' out b' names' (fun n => meaning (els b (meaning (E n)))) A2) as (vec' & V1' & V2').
  { now rewrite A3. }
  { rewrite A3. intros n Hn. specialize (U n Hn). unfold usable in U. apply andb_true_iff in U. apply U. }
  destruct (model_of_set h' out b' names' (fun n => els b (meaning (E n))) vec' A2 V1') as (w' & W1' & W2').
  { rewrite A3. intros n Hn j Hj.
    specialize (U (S n) ltac:(lia)). unfold usable in U. apply andb_true_iff in U. destruct U as [_ U].
    rewrite forallb_forall in U. specialize (U j ltac:(cbn; lia)). apply String.eqb_eq in U.
    assert (j < length names')%nat as Hl by (rewrite (fit_length _ _ HF'); auto).
    assert (In (nth j names' "?") names') as Hin by (apply nth_In; auto).
    rewrite (nth_indep names' "" "?") by auto.
    apply V2' with (p := nth j names' "?"); auto; [rewrite A3; auto|exact (fit_pnames _ _ _ HF' Hin)|].
    apply A4; auto. lia. }
  rewrite A3 in W2'.
  exists vec, w, h', (caller_after ps b'), out, vec', w', (fun n => els b (meaning (E (S n)))),
    (fun n => els b' (meaning (els b (meaning (E (S n)))))).
  do 7 (split; [auto|]).
  split.
  { apply flags_storable with (num := ps_num ps); auto; [|exact (po_locs _ _ _ _ A2)].
    intros n pq Hn Hin. specialize (U n Hn). unfold usable in U. apply andb_true_iff in U. destruct U as [U _].
    rewrite forallb_forall in U. auto. }
  split; auto.
  intros n Hn. assert (in_domain (E (S n))) as D by (apply H; lia).
  assert (recovered names (E (S n)) (els b (meaning (E (S n))))) as R by (now apply els_meaning).
  split; auto. split; auto. split; auto. apply els_meaning; auto. eapply recovered_domain; eauto.
Qed.

Lemma trend_rows_eq h ps b names h' out b' names' vec vec' m m' :
  params_ok h ps b names -> params_ok h' out b' names' -> ps_num out = ps_num ps ->
  (forall k, In k (dkeys (ps_items ps)) -> storable h (ps_items ps) k) ->
  (forall k, In k (dkeys (ps_items out)) -> storable h' (ps_items out) k) ->
  (forall k, non_orbital (ps_num ps) k -> get_param h' (ps_items out) k = get_param h (ps_items ps) k) ->
  vector_init h ps = Ok vec -> vector_init h' out = Ok vec' ->
  m_vector m = vec -> m_vector m' = vec' -> m_params m = ps -> m_params m' = out -> m_time_base m = m_time_base m' ->
  forall use_c fuel t pn,
  standard_rv_calc use_c fuel t out (v_vector vec') pn = standard_rv_calc use_c fuel t ps (v_vector vec) pn ->
  rvmodel_call use_c fuel m' t pn = rvmodel_call use_c fuel m t pn.
Proof.
  intros OK OK' HN ST ST' NO V V' M1 M2 M3 M4 M5 use_c fuel t pn HS.
  destruct (vector_trend h ps b names vec OK ST V) as (I & D & C).
  destruct (vector_trend h' out b' names' vec' OK' ST' V') as (I' & D' & C').
  unfold rvmodel_call. rewrite M1, M2, M3, M4, M5, HS. clear HS.
  destruct (standard_rv_calc use_c fuel t ps (v_vector vec) pn) as [vel|]; [|reflexivity]. cbn [bind].
  unfold dget_res. rewrite I, I', !index_dvdt, !index_curv. cbn [bind]. unfold vget. rewrite D, D', C, C'.
  assert (forall k, no_digit k = true -> row_at h' (ps_items out) k = row_at h (ps_items ps) k) as RW.
  { intros k Hk. unfold row_at. rewrite NO; auto. intros n p _ Hp E. symmetry in E. revert E.
    apply key_not_plain; auto. now apply pnames_no_digit. }
  rewrite !RW by reflexivity. reflexivity.
Qed.

Lemma converted_velocities h ps b names b' names' (E : nat -> elements) tb use_c fuel t pn :
  params_ok h ps b names -> strict ps names -> flags_ok h ps -> In (b', names') FIT_BASES ->
  In (b, b') CONVERTIBLE ->
  (forall n, (1 <= n <= ps_num ps)%nat -> in_domain (E n) /\ holds h ps names n (meaning (E n))) ->
  (forall n, (1 <= n <= ps_num ps)%nat -> (0 < el_e (E n))%R) ->
  valid_planet (ps_num ps) pn ->
  exists m h' ps' out m', rvmodel_init h ps tb = Ok m /\ convert h ps b' = Ok (h', ps', Some out) /\
    rvmodel_init h' out tb = Ok m' /\ rvmodel_call use_c fuel m' t pn = rvmodel_call use_c fuel m t pn.
Proof.
  intros OK ST FL HF' HC H HE HPN.
  destruct (convertible_model h ps b names b' names' E OK ST FL HF' HC H)
    as (vec & w & h' & ps' & out & vec' & w' & E1 & E2 & V & W & C & V' & W' & N & OK' & ST' & NO & R).
  exists (mkRVModel ps vec tb), h', ps', out, (mkRVModel out vec' tb).
  unfold rvmodel_init. rewrite V, V'. split; auto. split; auto. split; auto.
  eapply trend_rows_eq with (ps := ps) (out := out); eauto.
  rewrite (standard_calc_elements use_c fuel t ps (v_vector vec) pn w E1); auto; [|intros; now apply R].
  rewrite (standard_calc_elements use_c fuel t out (v_vector vec') pn w' E2); auto; [| |now rewrite N].
  2:{ rewrite N. intros. now apply R. }
  replace (planets_of out pn) with (planets_of ps pn) by (destruct pn; cbn; now rewrite ?N).
  apply planets_rv_ext with (num := ps_num ps).
  - intros n Hn. eapply planets_valid; eauto.
  - intros n Hn. destruct (R n Hn) as (_ & _ & R1 & R2).
    destruct (H (S n) ltac:(lia)) as [D _].
    eapply rv_drive_recovered; eauto; [eapply recovered_domain; eauto|].
    left. rewrite (proj1 (proj2 (rec_shape _ _ _ R1))). apply HE. lia.
Qed.

(** the other pairs *)
Lemma unusable_model h ps b names b' names' (E : nat -> elements) :
  params_ok h ps b names -> strict ps names -> flags_ok h ps -> In (b', names') FIT_BASES ->
  ~ In (b, b') CONVERTIBLE -> ~ In (b, b') WRONG_TP -> (1 <= ps_num ps)%nat ->
  (forall n, (1 <= n <= ps_num ps)%nat -> holds h ps names n (meaning (E n))) ->
  exists h' ps' out, convert h ps b' = Ok (h', ps', Some out) /\ vector_init h' out = Err ValueError.
Proof.
  intros OK ST FL HF' NC NW HN H. pose proof (po_fit _ _ _ _ OK) as HB.
  destruct (convert_class h ps b names b' names' (fun n => meaning (E n)) (fun n => els b (meaning (E n))) OK ST FL HF' H)
    as (h' & out & A1 & A2 & A3 & A4 & A5 & A6 & A7).
  { intros n Hn. eapply els_ok; eauto. }
  exists h', (caller_after ps b'), out. split; auto.
  specialize (A5 1%nat ltac:(lia)). unfold classify in A5.
  destruct (pair_in b b' CONVERTIBLE) eqn:P1; [apply pair_in_spec in P1; contradiction|].
  destruct (pair_in b b' WRONG_TP) eqn:P2; [apply pair_in_spec in P2; contradiction|].
  apply negb_true_iff in A5.
  assert (exists pq, In pq (projv h' 1 (ps_items out)) /\ vary_is_bool pq = false) as (pq & Hin & Hv).
  { revert A5. generalize (projv h' 1 (ps_items out)). induction d as [|a d IH]; cbn; [discriminate|].
    intro B. apply andb_false_iff in B. destruct B as [B|B]; [exists a; auto|]. destruct (IH B) as (x & ? & ?). eauto. }
  assert (exists p l, pq = (p, snd pq) /\ In p PNAMES /\ In (key p 1, l) (ps_items out) /\ nth_error h' l = Some (snd pq))
    as (p & l & Epq & Hp & Hl & Hh).
  { unfold projv in Hin. apply in_flat_map in Hin. destruct Hin as ([k l] & Hk & Hin). unfold planet_entry in Hin.
    cbn [fst snd] in Hin. destruct (unkey 1 k) as [p|] eqn:U; [|contradiction]. apply unkey_some in U. destruct U as [-> Hp].
    destruct (nth_error h' l) as [q|] eqn:Hq; [|contradiction]. destruct Hin as [<-|[]]. exists p, l. auto. }
  eapply vector_value_error with (k := key p 1); eauto.
  - apply in_map_iff. exists (key p 1, l). auto.
  - exists 1%nat, p. repeat split; auto. lia.
  - exists (snd pq). split.
    + unfold get_param. rewrite (in_dget (ps_items out) (key p 1) l); auto. exact (po_wf _ _ _ _ A2).
    + unfold vary_is_bool in Hv. destruct (p_vary (snd pq)); [discriminate|reflexivity].
Qed.

(** pairs that put the transit time in the row of the periastron time *)
Lemma wrong_tp_model h ps b names b' names' (E : nat -> elements) :
  params_ok h ps b names -> strict ps names -> flags_ok h ps -> In (b', names') FIT_BASES ->
  In (b, b') WRONG_TP ->
  (forall n, (1 <= n <= ps_num ps)%nat -> in_domain (E n) /\ holds h ps names n (meaning (E n))) ->
  exists h' ps' out vec' w', convert h ps b' = Ok (h', ps', Some out) /\ vector_init h' out = Ok vec' /\
    v_to_synth (ps_basis out) (v_vector vec') false None = Ok w' /\
    forall n, (n < ps_num ps)%nat -> rowval w' (1 + 5 * n) = Some (meaning (E (S n)) "tc").
Proof.
  intros OK ST FL HF' HW H. pose proof (po_fit _ _ _ _ OK) as HB.
  destruct (convert_class h ps b names b' names' (fun n => meaning (E n)) (fun n => els b (meaning (E n))) OK ST FL HF')
    as (h' & out & A1 & A2 & A3 & A4 & A5 & A6 & A7).
  { intros n Hn. now apply H. }
  { intros n Hn. eapply els_ok; eauto. }
  assert (pair_in b b' CONVERTIBLE = false) as NC.
  { destruct (pair_in b b' CONVERTIBLE) eqn:P; auto. apply pair_in_spec in P. clear -P HW.
    cbn in HW. destruct HW as [HW|[HW|[]]]; inversion HW; subst; cbn in P; intuition discriminate. }
  assert (b' = "logper tp e w logk" /\ In "w" names) as [-> Hw].
  { clear -HW HB. cbn in HW. destruct HW as [HW|[HW|[]]]; inversion HW; subst; split; auto; fit_cases HB; cbn; tauto. }
  assert (names' = ["logper"; "tp"; "e"; "w"; "logk"]) as ->.
  { clear -HF'. apply fit_names in HF'. rewrite <- HF'. reflexivity. }
  assert (forall n, (1 <= n <= ps_num ps)%nat -> els b (meaning (E n)) = E n) as EE.
  { intros n Hn. apply (rec_w names); auto. apply els_meaning; auto. now apply H. }
  assert (forall n, (1 <= n <= ps_num ps)%nat -> wrong_tp ["logper"; "tp"; "e"; "w"; "logk"] (projv h' n (ps_items out)) = true) as U.
  { intros n Hn. specialize (A5 n Hn). unfold classify in A5. rewrite NC, (proj2 (pair_in_spec _ _ WRONG_TP) HW) in A5. auto. }
  destruct (usable_vector h' out _ _ (fun n => meaning (E n)) A2) as (vec' & V1' & V2').
  { now rewrite A3. }
  { rewrite A3. intros n Hn. specialize (U n Hn). unfold wrong_tp in U. rewrite !andb_true_iff in U. tauto. }
  set (x := fun n j => if Nat.eqb j 1 then meaning (E (S n)) "tc" else meaning (E (S n)) (nth j ["logper"; "tp"; "e"; "w"; "logk"] "")).
  assert (forall n, (n < ps_num ps)%nat -> five (v_vector vec') (5 * n) (x n)) as FV.
  { intros n Hn j Hj. specialize (U (S n) ltac:(lia)). unfold wrong_tp in U. rewrite !andb_true_iff in U. destruct U as [[U0 U1] U2].
    apply String.eqb_eq in U1. rewrite forallb_forall in U2. unfold x.
    destruct (Nat.eqb_spec j 1) as [->|NJ].
    - apply V2' with (p := "tc"); auto; [rewrite A3; auto|cbn; tauto|]. rewrite A6 by (auto; lia). rewrite EE by lia. reflexivity.
    - specialize (U2 j ltac:(cbn; lia)). apply String.eqb_eq in U2.
      assert (j < length ["logper"; "tp"; "e"; "w"; "logk"])%nat as Hl by (cbn; lia).
      assert (In (nth j ["logper"; "tp"; "e"; "w"; "logk"] "?") ["logper"; "tp"; "e"; "w"; "logk"]) as Hin by (apply nth_In; auto).
      rewrite (nth_indep _ "" "?") by auto.
      apply V2' with (p := nth j ["logper"; "tp"; "e"; "w"; "logk"] "?"); auto; [rewrite A3; auto|exact (fit_pnames _ _ _ HF' Hin)|].
      rewrite A4 by (auto; lia). now rewrite EE by lia. }
  destruct (v_to_synth_main "logper tp e w logk" ["logper"; "tp"; "e"; "w"; "logk"] (ps_basis out) (v_vector vec') false None x
     (fun n => mkEl (exp (x n 0%nat)) (x n 1%nat) (x n 2%nat) (x n 3%nat) (exp (x n 4%nat))) HF' (po_name _ _ _ _ A2))
    as (w' & W1 & W2 & W3 & W4).
  { rewrite (po_num _ _ _ _ A2), A3. auto. }
  { intros. reflexivity. }
  rewrite (po_num _ _ _ _ A2), A3 in W3.
  exists h', (caller_after ps "logper tp e w logk"), out, vec', w'. split; auto. split; auto. split; auto.
  intros n Hn. rewrite (W3 n Hn 1%nat ltac:(lia)). reflexivity.
Qed.

(** ** C16 for parameter sets *)
Lemma sum_at_samples cs i : sum_at cs i = sum_samples i cs.
Proof. unfold sum_samples. induction cs as [|c cs IH]; cbn; auto. unfold sum_at in IH. now rewrite IH. Qed.

Lemma row_at_trend h ps k x i v : trend_value h ps k x -> nth_error v i = Some (row_at h (ps_items ps) k) -> vget v i = Ok x.
Proof.
  unfold trend_value, row_at, vget. intros H ->. destruct (get_param h (ps_items ps) k) as [q|]; cbn.
  - now rewrite H.
  - now subst.
Qed.

Lemma set_superposition h ps b names (E : nat -> elements) dvdt curv tb use_c fuel t pn :
  params_ok h ps b names -> strict ps names -> flags_ok h ps ->
  (forall n, (1 <= n <= ps_num ps)%nat -> in_domain (E n) /\ holds h ps names n (meaning (E n))) ->
  trend_value h ps "dvdt" dvdt -> trend_value h ps "curv" curv ->
  exists m E1, rvmodel_init h ps tb = Ok m /\
    (forall n, (1 <= n <= ps_num ps)%nat -> recovered names (E n) (E1 n)) /\
    forall vel, valid_planet (ps_num ps) pn -> rvmodel_call use_c fuel m t pn = Ok vel ->
      exists curves, length curves = length (planets_of ps pn) /\
        (forall j n c, nth_error (planets_of ps pn) j = Some n -> nth_error curves j = Some c ->
           exists x, rv_drive use_c fuel t (orb (E1 (Z.to_nat n))) = Ok x /\ npelems x = c) /\
        length vel = length t /\
        forall i ti, nth_error t i = Some ti ->
          nth_error vel i = Some (sum_samples i curves + dvdt * (ti - tb) + curv * (ti - tb) ^ 2)%R.
Proof.
  intros OK ST FL H TD TC. pose proof (po_fit _ _ _ _ OK) as HB.
  destruct (strict_vector h ps b names (fun n => meaning (E n)) OK ST FL) as (vec & V1 & V2).
  { intros n Hn. now apply H. }
  destruct (model_of_set h ps b names E vec OK V1 V2) as (w & W1 & W2).
  destruct (vector_trend h ps b names vec OK FL V1) as (I & D & C).
  exists (mkRVModel ps vec tb), (fun n => els b (meaning (E n))).
  split. { unfold rvmodel_init. now rewrite V1. }
  split. { intros n Hn. apply els_meaning; auto. now apply H. }
  intros vel HPN HC.
  destruct (superposition _ _ _ _ _ _ HC) as (w' & d' & c' & os & cs & EW & (i1 & i2 & T1 & T2 & T3 & T4) & L1 & L2 & HH & LV & NV).
  cbn [m_params m_vector m_time_base] in *.
  assert (w' = w) by congruence. subst w'.
  rewrite I, index_dvdt in T1. rewrite I, index_curv in T3. 
  assert (i1 = (5 * ps_num ps)%nat) as -> by congruence. assert (i2 = (1 + 5 * ps_num ps)%nat) as -> by congruence.
  rewrite (row_at_trend _ _ _ _ _ _ TD D) in T2. rewrite (row_at_trend _ _ _ _ _ _ TC C) in T4.
  inversion T2; inversion T4; subst d' c'.
  exists cs. split; auto. split; [|split; auto].
  - intros j n c Hn Hc. destruct (nth_error os j) as [o|] eqn:Eo.
    2:{ apply nth_error_None in Eo. assert (j < length (planets_of ps pn))%nat by (apply nth_error_Some; congruence). lia. }
    destruct (HH j n o c Hn Eo Hc) as (A & x & B1 & B2). exists x. split; auto.
    destruct (planets_valid ps pn n HPN (nth_error_In _ _ Hn)) as (m & Hm & ->).
    rewrite (orbel_at_five w m _ (W2 m Hm)) in A. inversion A; subst o.
    replace (Z.to_nat (Z.of_nat (S m))) with (S m) by lia. auto.
  - intros i ti Hi. rewrite (NV i ti Hi), sum_at_samples. reflexivity.
Qed.

(** a planet of zero semi-amplitude can be left out *)
Lemma zero_k_curve use_c fuel t o x : o_k o = 0%R -> rv_drive use_c fuel t o = Ok x ->
  npelems x = repeat 0%R (length t).
Proof.
  intros Hk H. apply nth_error_ext. intro i.
  pose proof (rv_drive_length _ _ _ _ _ H) as L.
  destruct (nth_error (npelems x) i) as [y|] eqn:Ey.
  - rewrite (zero_k _ _ _ _ _ Hk H y (nth_error_In _ _ Ey)). symmetry. apply nth_error_repeat. rewrite <- L.
    apply nth_error_Some. congruence.
  - symmetry. apply nth_error_None. rewrite repeat_length, <- L. now apply nth_error_None.
Qed.

(** the call returns for moderate eccentricities *)
Lemma set_call_returns h ps b names (E : nat -> elements) dvdt curv tb use_c t pn :
  params_ok h ps b names -> strict ps names -> flags_ok h ps ->
  (forall n, (1 <= n <= ps_num ps)%nat -> in_domain (E n) /\ holds h ps names n (meaning (E n))) ->
  (forall n, (1 <= n <= ps_num ps)%nat -> (el_e (E n) <= 3 / 10)%R) -> t <> [] ->
  trend_value h ps "dvdt" dvdt -> trend_value h ps "curv" curv -> valid_planet (ps_num ps) pn ->
  exists m vel, rvmodel_init h ps tb = Ok m /\ rvmodel_call use_c 29 m t pn = Ok vel.
Proof.
  intros OK ST FL H HE HT TD TC HP. pose proof (po_fit _ _ _ _ OK) as HB.
  destruct (strict_vector h ps b names (fun n => meaning (E n)) OK ST FL) as (vec & V1 & V2).
  { intros n Hn. now apply H. }
  destruct (model_of_set h ps b names E vec OK V1 V2) as (w & W1 & W2).
  destruct (vector_trend h ps b names vec OK FL V1) as (I & D & C).
  destruct (call_succeeds use_c 29 (mkRVModel ps vec tb) t pn w dvdt curv) as [vel HV].
  - exact W1.
  - exists (5 * ps_num ps)%nat, (1 + 5 * ps_num ps)%nat. cbn [m_params m_vector].
    rewrite I, index_dvdt, index_curv. rewrite (row_at_trend _ _ _ _ _ _ TD D), (row_at_trend _ _ _ _ _ _ TC C). auto.
  - cbn [m_params]. intros n Hn. destruct (planets_valid ps pn n HP Hn) as (m & Hm & ->).
    rewrite (orbel_at_five w m _ (W2 m Hm)). eexists.
    destruct (rv_drive_terminates use_c t (orb (els b (meaning (E (S m)))))) as [x Hx]; auto; [|exists x; split; [reflexivity|exact Hx]].
    cbn [orb o_e]. destruct (els_meaning b names (E (S m)) HB) as [[_ [Q _]] _ _ _]; [apply H; lia|].
    rewrite Q. apply HE. lia.
  - exists (mkRVModel ps vec tb), vel. split; auto. unfold rvmodel_init. now rewrite V1.
Qed.
