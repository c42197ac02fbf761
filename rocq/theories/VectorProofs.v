(** C13-C15: dictionary <-> vector, row names, copying. *)
From Coq Require Import Reals String Ascii Arith Bool Lia List.
From Verif Require Import Py PyFacts Params ParamsProofs ParamsSpec.
Import ListNotations.
Open Scope string_scope.

Ltac fit_cases H :=
  cbn in H; repeat (destruct H as [H|H]; [inversion H; subst; clear H|]); [..|contradiction].

Lemma fit_names b names : In (b, names) FIT_BASES -> split b = names.
Proof. intro H. fit_cases H; reflexivity. Qed.

Lemma fit_pnames b names p : In (b, names) FIT_BASES -> In p names -> In p PNAMES.
Proof. intros H Hp. fit_cases H; cbn in *; tauto. Qed.

Lemma fit_column b names j p : In (b, names) FIT_BASES -> nth_error names j = Some p -> column p = j.
Proof.
  intros H Hp. fit_cases H; destruct j as [|[|[|[|[|j]]]]]; cbn in Hp;
             try (inversion Hp; subst; reflexivity); destruct j; discriminate.
Qed.

Lemma fit_length b names : In (b, names) FIT_BASES -> length names = 5%nat.
Proof. intro H. fit_cases H; reflexivity. Qed.

Lemma fit_nodup b names : In (b, names) FIT_BASES -> NoDup names.
Proof. intro H. fit_cases H; repeat constructor; cbn; intuition discriminate. Qed.

Lemma fit_column_inj b names p q : In (b, names) FIT_BASES -> In p names -> In q names ->
  column p = column q -> p = q.
Proof.
  intros H Hp Hq E. apply In_nth_error in Hp, Hq. destruct Hp as [i Hi], Hq as [j Hj].
  rewrite (fit_column b names i p H Hi), (fit_column b names j q H Hj) in E. congruence.
Qed.

(** the keys the layout requires *)
Definition planet_keys (num : nat) (names : list string) : list string :=
  flat_map (fun n => map (fun p => key p n) names) (seq 1 num).

Lemma in_planet_keys num names k :
  In k (planet_keys num names) <-> exists n p, (1 <= n <= num)%nat /\ In p names /\ k = key p n.
Proof.
  unfold planet_keys. rewrite in_flat_map. split.
  - intros (n & Hn & Hk). apply in_map_iff in Hk. destruct Hk as (p & <- & Hp).
    apply in_seq in Hn. exists n, p. repeat split; auto; lia.
  - intros (n & p & Hn & Hp & ->). exists n. split; [apply in_seq; lia|].
    apply in_map_iff. eauto.
Qed.

Lemma length_planet_keys num names : length (planet_keys num names) = (num * length names)%nat.
Proof.
  unfold planet_keys. rewrite <- (seq_length num 1) at 2.
  induction (seq 1 num); cbn; auto. rewrite app_length, map_length. lia.
Qed.

Lemma NoDup_planet_keys num names : NoDup names -> (forall p, In p names -> no_digit p = true) ->
  NoDup (planet_keys num names).
Proof.
  intros ND HD. unfold planet_keys. generalize (seq_NoDup num 1).
  induction (seq 1 num) as [|n ns IH]; cbn; intro HS; [constructor|].
  inversion HS; subst.
  assert (NoDup (map (fun p => key p n) names)) as A.
  { clear -ND HD. induction names as [|a l IH]; cbn; constructor; inversion ND; subst.
    - intro Hin. apply in_map_iff in Hin. destruct Hin as (b & E & Hb).
      apply key_inj in E; auto with datatypes. destruct E as [-> _]. contradiction.
    - apply IH; auto. intros; apply HD; now right. }
  revert A. generalize (IH H2). clear IH.
  assert (forall x, In x (map (fun p => key p n) names) ->
                    ~ In x (flat_map (fun n => map (fun p => key p n) names) ns)) as D.
  { intros x Hx Hx'. apply in_map_iff in Hx. destruct Hx as (p & <- & Hp).
    apply in_flat_map in Hx'. destruct Hx' as (m & Hm & Hx').
    apply in_map_iff in Hx'. destruct Hx' as (q & E & Hq). apply key_inj in E; auto.
    destruct E as [_ ->]. contradiction. }
  revert D. generalize (flat_map (fun n => map (fun p => key p n) names) ns).
  intros l D Hl A. induction (map (fun p => key p n) names) as [|a r IHr]; cbn; auto.
  inversion A; subst. constructor.
  - intro Hin. apply in_app_or in Hin. destruct Hin; [contradiction|].
    apply (D a); auto. now left.
  - apply IHr; auto. intros; apply D. now right.
Qed.

Lemma NoDup_app2 {A} (l1 l2 : list A) : NoDup l1 -> NoDup l2 ->
  (forall x, In x l1 -> In x l2 -> False) -> NoDup (l1 ++ l2).
Proof.
  induction l1 as [|a r IH]; cbn; auto. intros H1 H2 D. inversion H1; subst. constructor.
  - intro Hin. apply in_app_or in Hin. destruct Hin; [contradiction|]. apply (D a); auto.
  - apply IH; auto. intros x Hx Hx'. apply (D x); auto.
Qed.

(** number of rows is large enough *)
Definition trend_present (d : dict nat) : list string :=
  (if dmem d "dvdt" then ["dvdt"] else []) ++ (if dmem d "curv" then ["curv"] else []).

Lemma dmem_in {V} (d : dict V) k : dmem d k = true <-> In k (dkeys d).
Proof.
  unfold dmem. destruct (dget d k) eqn:E.
  - split; auto. intros _. now apply dget_key in E.
  - split; [discriminate|]. intro H. apply dget_none in E. contradiction.
Qed.

Lemma rows_enough_w num b names (d : dict nat) : In (b, names) FIT_BASES -> NoDup (dkeys d) ->
  (forall n p, (1 <= n <= num)%nat -> In p names -> In (key p n) (dkeys d)) ->
  (5 * num + 2 + length (filter is_extra (dkeys d)) <= length (dkeys d) + n_missing d)%nat.
Proof.
  intros HF ND HH.
  assert (incl (planet_keys num names ++ trend_present d ++ filter is_extra (dkeys d)) (dkeys d)) as HI.
  { intros k Hk. apply in_app_or in Hk. destruct Hk as [Hk|Hk].
    - apply in_planet_keys in Hk. destruct Hk as (n & p & Hn & Hp & ->). auto.
    - apply in_app_or in Hk. destruct Hk as [Hk|Hk].
      + unfold trend_present in Hk. apply in_app_or in Hk.
        destruct (dmem d "dvdt") eqn:E1, (dmem d "curv") eqn:E2; cbn in Hk;
          intuition subst; now apply dmem_in.
      + now apply filter_In in Hk. }
  apply NoDup_incl_length in HI.
  - rewrite !app_length, length_planet_keys, (fit_length b names HF) in HI.
    unfold n_missing, trend_present in *.
    destruct (dmem d "dvdt"), (dmem d "curv"); cbn [length app] in HI; lia.
  - apply NoDup_app2; [|apply NoDup_app2|].
    + apply NoDup_planet_keys; [eapply fit_nodup; eauto|].
      intros p Hp. apply pnames_no_digit. eapply fit_pnames; eauto.
    + unfold trend_present. destruct (dmem d "dvdt"), (dmem d "curv"); cbn;
        repeat constructor; cbn; intuition discriminate.
    + now apply NoDup_filter.
    + intros x Hx Hx'. apply filter_In in Hx'. destruct Hx' as [_ Hx'].
      unfold trend_present in Hx. apply in_app_or in Hx.
      destruct (dmem d "dvdt"), (dmem d "curv"); cbn in Hx; intuition (subst; discriminate).
    + intros x Hx Hx'. apply in_planet_keys in Hx. destruct Hx as (n & p & Hn & Hp & ->).
      assert (In p PNAMES) as Hpp by (eapply fit_pnames; eauto).
      apply in_app_or in Hx'. destruct Hx' as [Hx'|Hx'].
      * unfold trend_present in Hx'. apply in_app_or in Hx'.
        assert (key p n <> "dvdt" /\ key p n <> "curv") as [N1 N2]
          by (split; apply key_not_plain; pnd).
        destruct (dmem d "dvdt"), (dmem d "curv"); cbn in Hx'; intuition congruence.
      * apply filter_In in Hx'. rewrite pnames_not_extra in Hx'; auto. easy.
Qed.

Lemma rows_enough num b names (d : dict nat) : layout num b names (dkeys d) ->
  (5 * num + 2 + length (filter is_extra (dkeys d)) <= length (dkeys d) + n_missing d)%nat.
Proof. intros [HF ND HH HO]. eapply rows_enough_w; eauto. Qed.

Lemma index_range_w num (d : dict nat) k i : NoDup (dkeys d) ->
  dget (init_index_dict num (dkeys d)) k = Some i ->
  (i < 5 * num + 2 + length (filter is_extra (dkeys d)))%nat.
Proof.
  intros L H. apply index_inv in H; [|apply L]. destruct H as [n p Hn Hp| | |k He Hin]; try lia.
  - pose proof (column_lt p). lia.
  - assert (rank k (filter is_extra (dkeys d)) < length (filter is_extra (dkeys d)))%nat
      by (apply rank_lt, filter_In; auto). lia.
Qed.

Lemma index_range num b names (d : dict nat) k i : layout num b names (dkeys d) ->
  dget (init_index_dict num (dkeys d)) k = Some i ->
  (i < 5 * num + 2 + length (filter is_extra (dkeys d)))%nat.
Proof. intro L. apply index_range_w, L. Qed.

Lemma index_distinct num b names (d : dict nat) k k' i : layout num b names (dkeys d) ->
  In k (dkeys d) -> In k' (dkeys d) ->
  dget (init_index_dict num (dkeys d)) k = Some i ->
  dget (init_index_dict num (dkeys d)) k' = Some i -> k = k'.
Proof.
  intros L Hk Hk' H H'. apply index_inv in H, H'; try apply L.
  remember i as i' eqn:Ei in H'. 
  destruct H as [n p Hn Hp| | |k He Hin]; destruct H' as [n' p' Hn' Hp'| | |k' He' Hin'];
    try (pose proof (column_lt p)); try (pose proof (column_lt p')); try lia; auto.
  - assert (n = n' /\ column p = column p') as [-> E] by lia.
    f_equal. apply (fit_column_inj b names); auto; try apply L.
    + eapply (l_only _ _ _ _ L); eauto.
    + eapply (l_only _ _ _ _ L); eauto.
  - apply (rank_inj _ _ (filter is_extra (dkeys d))); try (apply filter_In; auto). lia.
Qed.

(** ** C13 *)

Definition all_storable (h : heap) (d : dict nat) : Prop :=
  forall k, In k (dkeys d) -> storable h d k.

Lemma d2v num b names h d : layout num b names (dkeys d) -> all_storable h d ->
  exists v, dict_to_vector h d (init_index_dict num (dkeys d)) = Ok v /\
    length v = (length (dkeys d) + n_missing d)%nat /\
    (forall k i, In k (dkeys d) -> dget (init_index_dict num (dkeys d)) k = Some i ->
       nth_error v i = Some (row_at h d k)) /\
    (forall i, (i < length v)%nat ->
       (forall k, In k (dkeys d) -> dget (init_index_dict num (dkeys d)) k <> Some i) ->
       nth_error v i = Some zero_row).
Proof.
  intros L S. set (idx := init_index_dict num (dkeys d)).
  set (v0 := repeat zero_row (length (dkeys d) + n_missing d)).
  assert (length v0 = (length (dkeys d) + n_missing d)%nat) as Hl by apply repeat_length.
  assert (forall k i, In k (dkeys d) -> dget idx k = Some i -> (i < length v0)%nat) as HR.
  { intros k i _ E. apply index_range with (b := b) (names := names) in E; auto.
    pose proof (rows_enough num b names d L). lia. }
  exists (fold_left (fill_step (dget idx) (row_at h d)) (dkeys d) v0). split; [|split; [|split]].
  - apply dv_fill. intros k i Hk E. split; eauto.
  - rewrite length_fill. apply Hl.
  - intros k i Hk E. apply fill_in with (k := k); eauto; try apply L.
    intros k' Hk' E'. eapply index_distinct; eauto.
  - intros i Hi U. rewrite length_fill in Hi. rewrite fill_out; auto.
    unfold v0. apply nth_error_repeat. lia.
Qed.

(** vector_to_dict *)
Lemma vd_fill d idx v ks h :
  NoDup ks ->
  (forall k, In k ks -> exists l, dget d k = Some l /\ (l < length h)%nat) ->
  (forall k k' l, dget d k = Some l -> dget d k' = Some l -> k = k') ->
  (forall k i, In k ks -> dget idx k = Some i -> (i < length v)%nat) ->
  exists h', for_each ks (vd_step d idx v) h = Ok h' /\ length h' = length h /\
    (forall k p, In k ks -> get_param h d k = Some p ->
       get_param h' d k = Some (match dget idx k with
                                | Some i => mkParam (match nth_error v i with
                                                     | Some r => r_val r | None => p_value p end)
                                                    (p_vary p) (p_scale p) (p_lin p)
                                | None => p end)) /\
    (forall l, (forall k, In k ks -> dget d k <> Some l) -> nth_error h' l = nth_error h l).
Proof.
  revert h. induction ks as [|k r IH]; cbn; intros h ND HA HN HI.
  { exists h. repeat split; auto. easy. }
  inversion ND; subst.
  unfold vd_step at 1. destruct (dget idx k) as [i|] eqn:Ei.
  - assert (i < length v)%nat as Hi by (apply (HI k i); auto).
    destruct (nth_error v i) as [rw|] eqn:Er; [|apply nth_error_None in Er; lia].
    destruct (HA k (or_introl eq_refl)) as (l & El & Hl). rewrite El.
    destruct (nth_error h l) as [p|] eqn:Ep; [|apply nth_error_None in Ep; lia]. cbn.
    set (h1 := list_upd h l _).
    assert (length h1 = length h) as L1 by apply length_list_upd.
    destruct (IH h1) as (h' & E' & L' & G' & F'); eauto.
    { intros k' Hk'. destruct (HA k' (or_intror Hk')) as (l' & A & B). exists l'. rewrite L1. auto. }
    exists h'. split; [exact E'|]. split; [lia|]. split.
    + intros k0 p0 [<-|Hin] Hg.
      * unfold get_param in *. rewrite El in *. rewrite F'.
        -- unfold h1. rewrite nth_list_upd_same by auto. rewrite Ei, Er. congruence.
        -- intros k1 Hk1 E1. assert (k1 = k) by (eapply HN; eauto). congruence.
      * apply G'; auto. unfold get_param in *. destruct (dget d k0) as [l0|] eqn:E0; auto.
        unfold h1. rewrite nth_list_upd_other; auto. intro; subst l0.
        assert (k0 = k) by (eapply HN; eauto). congruence.
    + intros l0 H0. rewrite F'; [|intros; apply H0; auto].
      unfold h1. apply nth_list_upd_other. intro; subst. apply (H0 k); auto.
  - cbn. destruct (IH h) as (h' & E' & L' & G' & F'); eauto.
    exists h'. split; [exact E'|]. split; [lia|]. split.
    + intros k0 p0 [<-|Hin] Hg.
      * rewrite Ei. unfold get_param in *. destruct (HA k (or_introl eq_refl)) as (l & El & Hl).
        rewrite El in *. rewrite F'; auto.
        intros k1 Hk1 E1. assert (k1 = k) by (eapply HN; eauto). congruence.
      * now apply G'.
    + intros l0 H0. apply F'. intros; apply H0; auto.
Qed.

Lemma vd_main num b names h d v : layout num b names (dkeys d) -> objects_ok h d ->
  (5 * num + 2 + length (filter is_extra (dkeys d)) <= length v)%nat ->
  exists h', vector_to_dict d (init_index_dict num (dkeys d)) v h = Ok h' /\ length h' = length h /\
    (forall k p, get_param h d k = Some p ->
       get_param h' d k = Some (match dget (init_index_dict num (dkeys d)) k with
                                | Some i => mkParam (match nth_error v i with
                                                     | Some r => r_val r | None => p_value p end)
                                                    (p_vary p) (p_scale p) (p_lin p)
                                | None => p end)) /\
    (forall l, (forall k, dget d k <> Some l) -> nth_error h' l = nth_error h l).
Proof.
  intros L [OW OA ON] Hv.
  destruct (vd_fill d (init_index_dict num (dkeys d)) v (dkeys d) h) as (h' & E & Lh & G & F); auto.
  - intros k Hk. apply dget_some_key in Hk. destruct Hk as [l E]. exists l. split; auto. eauto.
  - intros k i Hk E. eapply index_range in E; eauto. lia.
  - exists h'. repeat split; auto.
    intros k p Hg. apply G; auto. unfold get_param in Hg.
    destruct (dget d k) eqn:E1; [|discriminate]. eapply dget_key; eauto.
Qed.

Lemma heap_ext (h h' : heap) : length h = length h' ->
  (forall l, nth_error h l = nth_error h' l) -> h = h'.
Proof.
  revert h'. induction h as [|a r IH]; destruct h' as [|b r']; cbn; try discriminate; auto.
  intros L H. f_equal.
  - specialize (H 0%nat). cbn in H. congruence.
  - apply IH; [lia|]. intro l. apply (H (S l)).
Qed.

(** dict -> vector -> dict changes nothing *)
Lemma round_trip_dict num b names h d : layout num b names (dkeys d) -> objects_ok h d ->
  all_storable h d ->
  exists v, dict_to_vector h d (init_index_dict num (dkeys d)) = Ok v /\
            vector_to_dict d (init_index_dict num (dkeys d)) v h = Ok h.
Proof.
  intros L O S. destruct (d2v num b names h d L S) as (v & E & Lv & G & _).
  exists v. split; auto.
  destruct (vd_main num b names h d v L O) as (h' & E' & L' & G' & F').
  { rewrite Lv. eapply rows_enough; eauto. }
  rewrite E'. f_equal. apply heap_ext; auto. intro l.
  destruct (in_dec Nat.eq_dec l (map snd d)) as [Hin|Hn].
  - apply in_map_iff in Hin. destruct Hin as ([k l'] & <- & Hin). cbn.
    apply in_dget in Hin; [|apply O].
    assert (In k (dkeys d)) as Hk by (eapply dget_key; eauto).
    destruct (S k Hk) as (p & bb & Hp & Hb). pose proof (G' k p Hp) as Q.
    unfold get_param in Q, Hp. rewrite Hin in Q, Hp. rewrite Q, Hp. f_equal.
    destruct (dget (init_index_dict num (dkeys d)) k) as [i|] eqn:Ei; auto.
    rewrite (G k i Hk Ei). unfold row_at, get_param. rewrite Hin, Hp. cbn.
    destruct p; reflexivity.
  - apply F'. intros k Hk. apply dget_in in Hk. apply Hn. apply in_map_iff. exists (k, l). auto.
Qed.

(** ** C14 *)
Lemma vn_fill idx ks nm :
  (forall k i, In k ks -> dget idx k = Some i -> (i < length nm)%nat) ->
  for_each ks (vn_step idx) nm = Ok (fold_left (fill_step (dget idx) Some) ks nm).
Proof.
  revert nm. induction ks as [|k r IH]; cbn; auto. intros nm H.
  unfold vn_step at 1. unfold fill_step at 2. destruct (dget idx k) as [i|] eqn:E.
  - pose proof (H k i (or_introl eq_refl) E) as Hi. apply Nat.ltb_lt in Hi. rewrite Hi. cbn.
    apply IH. intros. rewrite length_list_upd. eauto.
  - cbn. apply IH. eauto.
Qed.

Lemma flat_prefix (l : list (option string)) (m : nat) :
  (forall i, (i < m)%nat -> exists s, nth_error l i = Some (Some s)) ->
  forall i s, (i < m)%nat -> nth_error l i = Some (Some s) ->
    nth_error (flat_map (fun o => match o with Some s => [s] | None => [] end) l) i = Some s.
Proof.
  revert m. induction l as [|o r IH]; intros m H i s Hi E; [destruct i; discriminate|].
  destruct m; [lia|]. destruct (H 0%nat) as [s0 H0]; [lia|]. cbn in H0. inversion H0; subst o. cbn.
  destruct i; cbn in *; [congruence|]. apply (IH m); auto; [|lia].
  intros j Hj. apply (H (S j)). lia.
Qed.

Lemma flat_length (l : list (option string)) (m : nat) :
  (m <= length l)%nat ->
  (forall i, (i < m)%nat -> exists s, nth_error l i = Some (Some s)) ->
  (forall i, (m <= i)%nat -> nth_error l i = Some None \/ nth_error l i = None) ->
  length (flat_map (fun o => match o with Some s => [s] | None => [] end) l) = m.
Proof.
  revert m. induction l as [|o r IH]; intros m Hm H H'; cbn in *; [lia|].
  destruct m.
  - destruct (H' 0%nat) as [E|E]; try lia; cbn in E; inversion E; subst. cbn.
    apply (IH 0%nat); [lia|intros; lia|]. intros i _. apply (H' (S i)). lia.
  - destruct (H 0%nat) as [s0 H0]; [lia|]. cbn in H0. inversion H0; subst o. cbn.
    f_equal. apply IH; [lia| |].
    + intros i Hi. apply (H (S i)). lia.
    + intros i Hi. apply (H' (S i)). lia.
Qed.

(** which slots are taken *)
Lemma slot_taken num b names (d : dict nat) i : layout num b names (dkeys d) ->
  (i < 5 * num + 2 + length (filter is_extra (dkeys d)))%nat ->
  i <> (5 * num)%nat -> i <> (5 * num + 1)%nat ->
  exists k, In k (dkeys d) /\ dget (init_index_dict num (dkeys d)) k = Some i.
Proof.
  intros L Hi H1 H2. destruct (Nat.lt_ge_cases i (5 * num)) as [Hl|Hg].
  - set (n := S (i / 5)). set (j := (i mod 5)%nat).
    assert (i = 5 * (i / 5) + j)%nat as Ei by (apply Nat.div_mod; lia).
    assert (j < 5)%nat as Hj by (apply Nat.mod_upper_bound; lia).
    assert (i / 5 < num)%nat by lia.
    destruct (nth_error names j) as [p|] eqn:Ep.
    2:{ apply nth_error_None in Ep. rewrite (fit_length b names (l_fit _ _ _ _ L)) in Ep. lia. }
    assert (In p PNAMES) as Hpp.
    { eapply fit_pnames; [apply (l_fit _ _ _ _ L)|]. eapply nth_error_In; eauto. }
    exists (key p n). split.
    + apply (l_has _ _ _ _ L); [unfold n; lia|]. eapply nth_error_In; eauto.
    + rewrite index_planet; auto; [|unfold n; lia].
      rewrite (fit_column b names j p (l_fit _ _ _ _ L) Ep). f_equal. unfold n. lia.
  - set (c := (i - (5 * num + 2))%nat).
    destruct (nth_error (filter is_extra (dkeys d)) c) as [k|] eqn:Ek.
    2:{ apply nth_error_None in Ek. unfold c in Ek. lia. }
    assert (In k (filter is_extra (dkeys d))) as Hin by (eapply nth_error_In; eauto).
    exists k. apply filter_In in Hin as Hin2. destruct Hin2 as [Hk He]. split; auto.
    rewrite index_extra; auto; [|apply L]. f_equal.
    assert (rank k (filter is_extra (dkeys d)) = c).
    { pose proof (rank_nth k _ Hin) as R. 
      assert (NoDup (filter is_extra (dkeys d))) as ND by (apply NoDup_filter, L).
      rewrite NoDup_nth_error in ND. apply ND; [now apply rank_lt|]. congruence. }
    unfold c in *. lia.
Qed.

Lemma names_ok num b names (d : dict nat) : layout num b names (dkeys d) ->
  exists nm, vector_names d (init_index_dict num (dkeys d)) = Ok nm /\
    length nm = (5 * num + 2 + length (filter is_extra (dkeys d)))%nat /\
    (forall k i, In k (dkeys d) -> dget (init_index_dict num (dkeys d)) k = Some i ->
       nth_error nm i = Some k) /\
    nth_error nm (5 * num) = Some "dvdt" /\ nth_error nm (5 * num + 1) = Some "curv".
Proof.
  intro L. set (idx := init_index_dict num (dkeys d)).
  pose proof (rows_enough num b names d L) as HR.
  assert (n_missing d <= 2)%nat as HM by (unfold n_missing; destruct (dmem d "dvdt"), (dmem d "curv"); lia).
  set (nm0 := repeat (@None string) (length (dkeys d) + 2)).
  assert (length nm0 = (length (dkeys d) + 2)%nat) as L0 by apply repeat_length.
  set (nm1 := fold_left (fill_step (dget idx) Some) (dkeys d) nm0).
  assert (length nm1 = length nm0) as L1 by apply length_fill.
  assert (for_each (dkeys d) (vn_step idx) nm0 = Ok nm1) as E1.
  { apply vn_fill. intros k i Hk E. eapply index_range in E; eauto. lia. }
  assert (forall k i, In k (dkeys d) -> dget idx k = Some i -> nth_error nm1 i = Some (Some k)) as G1.
  { intros k i Hk E. apply fill_in with (k := k); auto.
    - eapply index_range in E; eauto. lia.
    - apply L.
    - intros k' Hk' E'. eapply index_distinct; eauto. }
  assert (forall i, (i < length nm0)%nat -> (forall k, In k (dkeys d) -> dget idx k <> Some i) ->
                    nth_error nm1 i = Some None) as G2.
  { intros i Hi U. unfold nm1. rewrite fill_out; auto. apply nth_error_repeat. lia. }
  assert (forall s j nmx, (s = "dvdt" /\ j = 5 * num \/ s = "curv" /\ j = 5 * num + 1)%nat ->
            length nmx = length nm0 -> nth_error nmx j = nth_error nm1 j ->
            vn_extra d idx nmx s = Ok (list_upd nmx j (Some s))) as X.
  { intros s j nmx Hs Hlen Hsame.
    assert (dget idx s = Some j) as Ej.
    { destruct Hs as [[-> ->]|[-> ->]]; unfold idx;
        [apply index_dvdt | rewrite index_curv; f_equal; lia]. }
    assert (j < length nm0)%nat as Hj by lia.
    unfold vn_extra. destruct (dmem d s) eqn:Em.
    - apply dmem_in in Em. f_equal. symmetry. apply list_upd_same. rewrite Hsame. now apply G1.
    - rewrite Ej, Hsame. rewrite G2; auto.
      intros k Hk Ek. assert (k = s); [|subst; apply dmem_in in Hk; congruence].
      apply index_inv in Ek; [|apply L].
      remember j as j' eqn:Hjj in Ek.
      destruct Ek as [n p Hn Hp| | |k He Hin]; destruct Hs as [[-> ->]|[-> ->]];
        try (pose proof (column_lt p)); try lia; auto. }
  set (nm2 := list_upd nm1 (5 * num) (Some "dvdt")).
  set (nm3 := list_upd nm2 (5 * num + 1) (Some "curv")).
  assert (for_each ["dvdt"; "curv"] (vn_extra d idx) nm1 = Ok nm3) as E2.
  { cbn [for_each]. rewrite (X "dvdt" (5 * num)%nat nm1); auto. cbn [bind]. fold nm2.
    rewrite (X "curv" (5 * num + 1)%nat nm2); auto.
    - unfold nm2. now rewrite length_list_upd.
    - unfold nm2. apply nth_list_upd_other. lia. }
  assert (length nm3 = length nm0) as L3 by (unfold nm3, nm2; rewrite !length_list_upd; auto).
  assert (nth_error nm3 (5 * num) = Some (Some "dvdt")) as GD.
  { unfold nm3. rewrite nth_list_upd_other by lia. unfold nm2. apply nth_list_upd_same. lia. }
  assert (nth_error nm3 (5 * num + 1) = Some (Some "curv")) as GC.
  { unfold nm3. apply nth_list_upd_same. unfold nm2. rewrite length_list_upd. lia. }
  assert (forall i, i <> (5 * num)%nat -> i <> (5 * num + 1)%nat -> nth_error nm3 i = nth_error nm1 i) as G3.
  { intros i A B. unfold nm3, nm2. rewrite !nth_list_upd_other; auto. }
  assert (forall i, (i < 5 * num + 2 + length (filter is_extra (dkeys d)))%nat ->
                    exists s, nth_error nm3 i = Some (Some s)) as FULL.
  { intros i Hi. destruct (Nat.eq_dec i (5 * num)) as [->|A]; eauto.
    destruct (Nat.eq_dec i (5 * num + 1)) as [->|B]; eauto.
    destruct (slot_taken num b names d i L Hi A B) as (k & Hk & Ek).
    exists k. rewrite G3; auto. }
  assert (forall k i, In k (dkeys d) -> dget idx k = Some i -> nth_error nm3 i = Some (Some k)) as G4.
  { intros k i Hk Ek. pose proof Ek as Ek'. apply index_inv in Ek'; [|apply L].
    remember i as i' eqn:Hii in Ek'.
    destruct Ek' as [n p Hn Hp| | |k He Hin]; subst i; auto.
    - rewrite G3; auto; pose proof (column_lt p); lia.
    - rewrite G3; auto; lia. }
  exists (flat_map (fun o => match o with Some s => [s] | None => [] end) nm3).
  split; [|split; [|split]].
  - unfold vector_names. fold nm0. fold idx. rewrite E1. cbn [bind]. rewrite E2. reflexivity.
  - apply flat_length; auto; [lia|]. intros i Hi.
    destruct (Nat.lt_ge_cases i (length nm0)) as [A|A].
    + left. rewrite G3 by lia. apply G2; auto. intros k Hk Ek.
      eapply index_range in Ek; eauto. lia.
    + right. apply nth_error_None. lia.
  - intros k i Hk Ek. eapply flat_prefix; eauto. eapply index_range; eauto.
  - split; eapply flat_prefix; eauto; lia.
Qed.

(** the names can always be listed, even when several keys share a slot *)
Lemma names_exist num b names (d : dict nat) : In (b, names) FIT_BASES -> NoDup (dkeys d) ->
  (forall n p, (1 <= n <= num)%nat -> In p names -> In (key p n) (dkeys d)) ->
  exists nm, vector_names d (init_index_dict num (dkeys d)) = Ok nm.
Proof.
  intros HF ND HH. set (idx := init_index_dict num (dkeys d)).
  pose proof (rows_enough_w num b names d HF ND HH) as HR.
  assert (n_missing d <= 2)%nat as HM by (unfold n_missing; destruct (dmem d "dvdt"), (dmem d "curv"); lia).
  set (nm0 := repeat (@None string) (length (dkeys d) + 2)).
  assert (length nm0 = (length (dkeys d) + 2)%nat) as L0 by apply repeat_length.
  set (nm1 := fold_left (fill_step (dget idx) Some) (dkeys d) nm0).
  assert (length nm1 = length nm0) as L1 by apply length_fill.
  assert (for_each (dkeys d) (vn_step idx) nm0 = Ok nm1) as E1.
  { apply vn_fill. intros k i Hk E. apply index_range_w in E; auto. lia. }
  assert (forall s j nmx, (s = "dvdt" /\ j = 5 * num \/ s = "curv" /\ j = 5 * num + 1)%nat ->
            length nmx = length nm0 -> nth_error nmx j = nth_error nm1 j ->
            exists nm', vn_extra d idx nmx s = Ok nm' /\ length nm' = length nm0 /\
              forall i, i <> j -> nth_error nm' i = nth_error nmx i) as X.
  { intros s j nmx Hs Hlen Hsame.
    assert (dget idx s = Some j) as Ej.
    { destruct Hs as [[-> ->]|[-> ->]]; unfold idx;
        [apply index_dvdt | rewrite index_curv; f_equal; lia]. }
    assert (j < length nm0)%nat as Hj by lia.
    unfold vn_extra. destruct (dmem d s) eqn:Em; [eauto|].
    assert (nth_error nm1 j = Some None) as G2.
    { unfold nm1. rewrite fill_out; [apply nth_error_repeat; lia|].
      intros k Hk Ek. assert (k = s); [|subst; apply dmem_in in Hk; congruence].
      apply index_inv in Ek; auto.
      remember j as j' eqn:Hjj in Ek.
      destruct Ek as [n p Hn Hp| | |k He Hin]; destruct Hs as [[-> ->]|[-> ->]];
        try (pose proof (column_lt p)); try lia; auto. }
    rewrite Ej, Hsame, G2. eexists. split; [reflexivity|]. split; [now rewrite length_list_upd|].
    intros i Hi. apply nth_list_upd_other; auto. }
  unfold vector_names. fold nm0. rewrite E1. cbn [bind for_each].
  destruct (X "dvdt" (5 * num)%nat nm1) as (nm2 & -> & L2 & S2); auto. cbn [bind].
  destruct (X "curv" (5 * num + 1)%nat nm2) as (nm3 & -> & L3 & S3); auto.
  { apply S2. lia. }
  cbn [bind]. eauto.
Qed.
