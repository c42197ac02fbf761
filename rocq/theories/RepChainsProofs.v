(** C74: proofs. *)
From Coq Require Import ZArith Reals String Arith Bool Lia Lra List.
From Verif Require Import Py PyFloat PyFacts Params ParamsProofs ParamsSpec VectorProofs Basis BasisNum BasisProofs BasisConv BasisModel BasisThms
  Likelihood PickleProofs Stats PostProc PostProcSpec PostProcProofs PostProcThms ParTable ParTableProofs Derive RepChains RepChainsSpec.
Import ListNotations.
Open Scope R_scope.
Open Scope string_scope.

Lemma print_sd el : conv_sd print_basis el = ([("tc", meaning el "tc"); ("w", meaning el "w")], []).
Proof. destruct el. reflexivity. Qed.

Lemma printed_pnames p : In p PRINTED -> In p PNAMES.
Proof. cbn. intuition (subst; tauto). Qed.
Lemma printed_split p : In p PRINTED -> In p FIVE \/ p = "tc".
Proof. cbn. intuition (subst; tauto). Qed.

(** ** the parameters *)
Lemma print_params h ps b names val : params_ok h ps b names -> (forall n, (1 <= n <= ps_num ps)%nat -> holds h ps names n (val n)) ->
  exists h' q, report_params h ps = Ok (h', Some q) /\ b_num (ps_basis q) = ps_num ps /\ ps_num q = ps_num ps /\ NoDup (dkeys (ps_items q)) /\
    (forall n p, (1 <= n <= ps_num ps)%nat -> In p PRINTED -> In (key p n) (dkeys (ps_items q)) /\ value_at h' q (key p n) = Some (meaning (els b (val n)) p)) /\
    (forall k, ~ printed_key (ps_num ps) k -> (In k (dkeys (ps_items q)) <-> In k (dkeys (ps_items ps))) /\ value_at h' q k = value_at h ps k).
Proof.
  intros OK HV.
  destruct (to_synth_main h ps b names true val (fun n => els b (val n)) OK HV) as (h1 & sp & E1 & OK1 & (t & Ht) & N1 & L1 & P1 & B1 & V1 & _ & _).
  { intros n Hn. apply els_ok with (names := names). apply OK. }
  destruct (to_synth_keeps _ _ _ _ _ _ _ OK HV E1) as [K1 K2].
  pose proof OK1 as [_ HN Hnum HL ND HH].
  assert (split (b_name (ps_basis sp)) = SYNTH) as Hsplit by (rewrite HN; reflexivity).
  destruct (from_synth_spec h1 (ps_basis sp) sp print_basis true (fun n => conv_sd print_basis (els b (val n))) HL ND) as (h' & q & R1 & R2 & R3 & [t2 R4] & R5 & R6 & R7 & R8 & R9 & R10).
  - reflexivity.
  - rewrite Hsplit. apply (fit_nodup _ _ synth_fit).
  - rewrite Hsplit. apply synth_pnames.
  - lia.
  - intros n Hn. rewrite B1 in Hn. split; [|rewrite print_sd; cbn; repeat split; try constructor; intuition (subst; cbn; tauto)].
    rewrite P1. change (str_in "tp" SYNTH) with true. rewrite <- conv_sd_ok. apply from_synth_of_names. intros p Hp. apply get1_value.
    apply holds_proj with (names := SYNTH); auto using synth_pnames.
  - exists h', q. rewrite Hsplit in R9, R10. rewrite B1 in R9, R10.
    assert (forall n p, (1 <= n <= ps_num ps)%nat -> In p PNAMES -> p <> "tc" -> p <> "w" -> get_param h' (ps_items q) (key p n) = get_param h1 (ps_items sp) (key p n)) as KEEP.
    { intros n p Hn Hp H1 H2. pose proof (R10 n Hn) as Z. rewrite print_sd in Z.
      assert (dget (projv h' n (ps_items q)) p = dget (projv h1 n (ps_items sp)) p) as Q; [|rewrite !projv_get in Q by auto; exact Q].
      rewrite Z. unfold from_synth1. cbn [fst snd fold_left]. unfold set1_from. rewrite !dget_set1. cbn [fst snd].
      apply String.eqb_neq in H1, H2. rewrite H1, H2.
      destruct (in_dec string_dec p (dkeys (projv h1 n (ps_items sp)))) as [Hi|Hi].
      - apply dget_dupdate_some; [now apply projv_nodup|exact Hi].
      - assert (~ In p SYNTH) as Hs.
        { intro Hs. apply Hi. assert (option_map p_value (dget (projv h1 n (ps_items sp)) p) = Some (Some (meaning (els b (val n)) p))) as W by (eapply holds_proj; eauto).
          destruct (dget (projv h1 n (ps_items sp)) p) eqn:Y; [|discriminate]. eapply dget_key; eauto. }
        apply dget_none in Hi. rewrite Hi. apply dget_none. intro Hin. apply Hs.
        assert (forall (d d2 : dict param) x, In x (dkeys (dupdate d d2)) -> In x (dkeys d) \/ In x (dkeys d2)) as U.
        { clear. intros d d2. revert d. unfold dupdate. induction d2 as [|[a x] d2 IH]; intros d z; cbn [fold_left]; [auto|]. intro H. apply IH in H. cbn [fst snd] in H.
          destruct H as [H|H]; [|right; now right]. apply in_dkeys_dset in H. destruct H as [->|H]; [|auto]. right. left. auto. }
        apply U in Hin. destruct Hin as [Hin|Hin]; [|apply dget_some_key in Hin as [? ?]; congruence].
        unfold dkeys in Hin. rewrite map_map in Hin. cbn [fst] in Hin. now rewrite map_id in Hin. }
    assert (forall n p, (1 <= n <= ps_num ps)%nat -> In p PRINTED -> value_at h' q (key p n) = Some (meaning (els b (val n)) p)) as VAL.
    { intros n p Hn Hp. unfold value_at. pose proof (printed_pnames _ Hp) as HP.
      destruct (string_dec p "tc") as [->|H1]; [|destruct (string_dec p "w") as [->|H2]].
      - pose proof (R10 n Hn) as Z. rewrite print_sd in Z. rewrite <- projv_get by auto. rewrite Z. unfold from_synth1. cbn [fst snd fold_left]. unfold set1_from. rewrite !dget_set1. cbn.
        destruct (dget (projv h1 n (ps_items sp)) "tc"); reflexivity.
      - pose proof (R10 n Hn) as Z. rewrite print_sd in Z. rewrite <- projv_get by auto. rewrite Z. unfold from_synth1. cbn [fst snd fold_left]. unfold set1_from. rewrite !dget_set1. cbn.
        destruct (dget (projv h1 n (ps_items sp)) "w"); reflexivity.
      - rewrite KEEP by auto. apply printed_split in Hp as [Hp| ->]; [|congruence]. apply (K2 n p Hn Hp). }
    split; [|split; [|split; [|split; [|split]]]].
    + unfold report_params. rewrite E1. cbn [bind]. rewrite R1. reflexivity.
    + rewrite R7. cbn. congruence.
    + congruence.
    + exact R3.
    + intros n p Hn Hp. split; [|auto]. eapply value_key. eapply VAL; eauto.
    + intros k Hk. assert (~ element_key (ps_num ps) k) as He.
      { intros (p & n & A & B & C). apply Hk. exists p, n. split; [|auto]. clear - A. cbn in *. intuition. }
      destruct (K1 k He) as [Q1 Q2]. rewrite <- Q1, <- Q2. clear Q1 Q2.
      destruct (planet_or_not (ps_num ps) k) as [(n & p & Hn & Hp & ->)|Hno].
      * assert (get_param h' (ps_items q) (key p n) = get_param h1 (ps_items sp) (key p n)) as G.
        { apply KEEP; auto; intros ->; apply Hk; [exists "tc", n|exists "w", n]; (split; [cbn; tauto|auto]). }
        split; [|unfold value_at; now rewrite G].
        split; intro Hin; apply dget_some_key in Hin as [l El].
        -- pose proof (R2 (key p n) l (dget_in _ _ _ El)) as Z. apply nth_error_Some in Z.
           unfold get_param in G. rewrite El in G. destruct (dget (ps_items sp) (key p n)) eqn:Y; [eapply dget_key; eauto|congruence].
        -- pose proof (HL (key p n) l (dget_in _ _ _ El)) as Z. apply nth_error_Some in Z.
           unfold get_param in G. rewrite El in G. destruct (dget (ps_items q) (key p n)) eqn:Y; [eapply dget_key; eauto|congruence].
      * assert (dget (ps_items q) k = dget (ps_items sp) k) as G.
        { destruct (R9 k (non_orbital_unkey _ _ Hno)) as [A B]. destruct (in_dec string_dec k (dkeys (ps_items sp))) as [Hi|Hi]; [auto|].
          rewrite B; auto; [symmetry; now apply dget_none|]. rewrite N1. apply non_orbital_default; auto using synth_pnames. }
        split; [split; intro Hin; apply dget_some_key in Hin as [l El]; eapply dget_key; [rewrite <- G|rewrite G]; eauto|].
        unfold value_at, get_param. rewrite G. destruct (dget (ps_items sp) k) as [l|] eqn:El; [|reflexivity]. rewrite R4.
        rewrite nth_error_app1; [reflexivity|]. eapply HL. eapply dget_in; eauto.
Qed.

(** ** missing columns *)
Lemma missing_loop h d ks : incl ks (dkeys d) -> (forall k, In k ks -> exists p x, get_param h d k = Some p /\ p_value p = Some x) -> forall t,
  exists t1, for_each ks (missing_step h d) t = Ok t1 /\ t_len t1 = t_len t /\
  (forall k, dget (t_cols t1) k = match dget (t_cols t) k with
     | Some c => Some c
     | None => if in_dec string_dec k ks then option_map (fun x => repeat x (t_len t)) (match get_param h d k with Some p => p_value p | None => None end) else None end).
Proof.
  induction ks as [|a ks IH]; intros I HV t; cbn [for_each].
  - exists t. split; [reflexivity|]. split; [reflexivity|]. intro k. destruct (in_dec string_dec k []) as [[]|]. now destruct (dget (t_cols t) k).
  - destruct (HV a (or_introl eq_refl)) as (p & x & Hp & Hx).
    assert (exists t0, missing_step h d t a = Ok t0 /\ t_len t0 = t_len t /\ forall k, dget (t_cols t0) k = match dget (t_cols t) k with Some c => Some c | None => if string_dec k a then Some (repeat x (t_len t)) else None end) as (t0 & E0 & L0 & G0).
    { unfold missing_step. destruct (dmem (t_cols t) a) eqn:Da.
      - exists t. split; [reflexivity|]. split; [reflexivity|]. intro k. destruct (dget (t_cols t) k) eqn:Q; [reflexivity|]. destruct (string_dec k a) as [->|]; [|reflexivity].
        unfold dmem in Da. now rewrite Q in Da.
      - rewrite Hp, Hx. eexists. split; [reflexivity|]. split; [reflexivity|]. intro k. cbn [t_cols]. rewrite dget_dset. destruct (String.eqb_spec k a) as [->|H].
        + unfold dmem in Da. destruct (dget (t_cols t) a); [discriminate|]. destruct (string_dec a a); [reflexivity|congruence].
        + destruct (dget (t_cols t) k); [reflexivity|]. destruct (string_dec k a); [congruence|reflexivity]. }
    rewrite E0. cbn [bind]. destruct (IH (fun z Hz => I z (or_intror Hz)) (fun z Hz => HV z (or_intror Hz)) t0) as (t1 & E1 & L1 & G1).
    exists t1. split; [exact E1|]. split; [congruence|]. intro k. rewrite G1, G0, L0. destruct (dget (t_cols t) k); [reflexivity|].
    destruct (string_dec k a) as [->|H].
    + destruct (in_dec string_dec a (a :: ks)) as [_|N]; [|destruct N; now left]. rewrite Hp. cbn. now rewrite Hx.
    + destruct (in_dec string_dec k ks) as [J|J]; destruct (in_dec string_dec k (a :: ks)) as [J'|J']; try reflexivity.
      * destruct J'. now right.
      * destruct J' as [->|J']; congruence.
Qed.

(** ** elements *)
Lemma synth_total name t ns : (forall n, In n ns -> exists el, synth_of name (entry t 0 n) = Ok el) ->
  (forall n i, In n ns -> (i < t_len t)%nat -> exists el, synth_of name (entry t i n) = Ok el) -> forall out, exists cols, for_each ns (synth_step name t) out = Ok cols.
Proof.
  induction ns as [|n ns IH]; intros H0 H out; [exists out; reflexivity|]. cbn [for_each]. unfold synth_step at 1.
  destruct (H0 n (or_introl eq_refl)) as [e0 ->]. cbn [bind].
  destruct (map_res (fun i => synth_of name (entry t i n)) (seq 0 (t_len t))) as [l|e] eqn:Em.
  - cbn [bind]. apply IH; intros; [apply H0|apply H]; auto; now right.
  - exfalso. assert (exists r, map_res (fun i => synth_of name (entry t i n)) (seq 0 (t_len t)) = Ok r) as [r Er]; [|congruence].
    assert (forall l, (forall i, In i l -> (i < t_len t)%nat) -> exists r, map_res (fun i => synth_of name (entry t i n)) l = Ok r) as U.
    { induction l as [|i l IHl]; intro Hl; [exists []; reflexivity|]. cbn [map_res]. destruct (H n i (or_introl eq_refl) (Hl i (or_introl eq_refl))) as [el ->]. cbn [bind].
      destruct IHl as [r ->]; [intros; apply Hl; now right|]. eexists. reflexivity. }
    apply U. intros i Hi. apply in_seq in Hi. lia.
Qed.

(** ** transit times *)
Lemma print_row t i n : (exists per e w tp, dget (t_cols t) (key "per" n) = Some per /\ dget (t_cols t) (key "e" n) = Some e /\ dget (t_cols t) (key "w" n) = Some w /\ dget (t_cols t) (key "tp" n) = Some tp) ->
  exists x, from_synth_of print_basis true (entry t i n) = Ok ([("tc", x); ("w", match dget (t_cols t) (key "w" n) with Some c => nth i c 0 | None => 0 end)], []) /\
    forall el, (forall p, In p FIVE -> entry t i n p = Ok (meaning el p)) -> x = meaning el "tc".
Proof.
  intros (per & e & w & tp & A & B & C & D). unfold from_synth_of. change (String.eqb print_basis "per tc e w k") with false. change (String.eqb print_basis "per tc tp e w k") with true. cbv iota.
  rewrite C. unfold entry, dget_res. rewrite A, B, C, D. cbn [bind]. eexists. split; [reflexivity|]. intros el H.
  pose proof (H "per" ltac:(cbn; tauto)) as H1. pose proof (H "e" ltac:(cbn; tauto)) as H2. pose proof (H "w" ltac:(cbn; tauto)) as H3. pose proof (H "tp" ltac:(cbn; tauto)) as H4.
  unfold entry, dget_res in *. rewrite A in H1. rewrite B in H2. rewrite C in H3. rewrite D in H4. cbn [bind] in *. injection H1 as H1. injection H2 as H2. injection H3 as H3. injection H4 as H4.
  rewrite H1, H2, H3, H4. destruct el. reflexivity.
Qed.

Definition tc_ok (t : table) (n : nat) (col : list R) : Prop :=
  length col = t_len t /\ forall i el, (i < t_len t)%nat -> (forall p, In p FIVE -> entry t i n p = Ok (meaning el p)) -> nth i col 0 = meaning el "tc".

Lemma map_res_total {A B} (f : A -> res B) (g : A -> B) l : (forall x, In x l -> f x = Ok (g x)) -> map_res f l = Ok (map g l).
Proof. induction l as [|x l IH]; intro H; [reflexivity|]. cbn [map_res map]. rewrite (H x) by now left. cbn [bind]. rewrite IH; [reflexivity|]. intros; apply H; now right. Qed.

Lemma print_loop t ns : NoDup ns -> (forall n, In n ns -> exists per e w tp, dget (t_cols t) (key "per" n) = Some per /\ dget (t_cols t) (key "e" n) = Some e /\ dget (t_cols t) (key "w" n) = Some w /\ dget (t_cols t) (key "tp" n) = Some tp) ->
  (forall n w, In n ns -> dget (t_cols t) (key "w" n) = Some w -> length w = t_len t) -> forall out,
  (forall n, In n ns -> dget out (key "w" n) = dget (t_cols t) (key "w" n)) ->
  exists cols, for_each ns (print_step t) out = Ok cols /\
  (forall n, In n ns -> exists col, dget cols (key "tc" n) = Some col /\ tc_ok t n col) /\
  (forall k, (forall n, In n ns -> k <> key "tc" n) -> dget cols k = dget out k).
Proof.
  induction ns as [|m ns IH]; intros ND H HW out HO; [exists out; split; [reflexivity|split; [easy|auto]]|].
  cbn [for_each]. unfold print_step at 1. inversion ND as [|? ? N1 N2]; subst.
  pose proof (H m (or_introl eq_refl)) as Hm. destruct (print_row t 0 m Hm) as (x0 & -> & _). cbn [bind fst map].
  set (w := match dget (t_cols t) (key "w" m) with Some c => c | None => [] end).
  assert (dget (t_cols t) (key "w" m) = Some w) as Ew by (unfold w; destruct Hm as (? & ? & c & ? & _ & _ & -> & _); reflexivity).
  assert (exists tc, (forall i, from_synth_of print_basis true (entry t i m) = Ok ([("tc", tc i); ("w", nth i w 0)], [])) /\ forall i el, (forall p, In p FIVE -> entry t i m p = Ok (meaning el p)) -> tc i = meaning el "tc") as (tc & F1 & F2).
  { exists (fun i => match from_synth_of print_basis true (entry t i m) with Ok r => assigned (fst r) "tc" | Err _ => 0 end).
    split; [intro i|intros i el]; destruct (print_row t i m Hm) as (x & E & G); rewrite E; [rewrite Ew; reflexivity|exact (G el)]. }
  rewrite (map_res_total _ (fun i => ([("tc", tc i); ("w", nth i w 0)], []))) by (intros; apply F1). cbn [bind fold_left].
  set (out1 := dset (dset out (key "tc" m) _) (key "w" m) _).
  assert (forall k, dget out1 k = if string_dec k (key "tc" m) then Some (map tc (seq 0 (t_len t))) else dget out k) as O1.
  { intro k. unfold out1. rewrite !dget_dset. rewrite !map_map. unfold assigned. cbn [fst dget String.eqb].
    destruct (string_dec k (key "tc" m)) as [->|Hk].
    - rewrite key_eqb by (apply pnames_no_digit; cbn; tauto). cbn [String.eqb]. cbn. now rewrite String.eqb_refl.
    - apply String.eqb_neq in Hk. rewrite Hk. destruct (String.eqb_spec k (key "w" m)) as [->|]; [|reflexivity].
      rewrite (HO m (or_introl eq_refl)), Ew. f_equal. cbn.
      assert (length w = t_len t) as Lw by (eapply HW; [now left|exact Ew]). rewrite <- Lw. clear. 
      apply (nth_ext _ _ 0 0); [now rewrite map_length, seq_length|]. intros i Hi. rewrite map_length, seq_length in Hi.
      rewrite (nth_indep _ 0 (nth 0 w 0)) by now rewrite map_length, seq_length. rewrite (map_nth (fun x => nth x w 0)). now rewrite seq_nth. }
  destruct (IH N2 (fun n Hn => H n (or_intror Hn)) (fun n c Hn => HW n c (or_intror Hn)) out1) as (cols & E & A & B).
  { intros n Hn. rewrite O1. destruct (string_dec _ _) as [K|_]; [|apply HO; now right]. apply key_inj in K; try (apply pnames_no_digit; cbn; tauto). destruct K; discriminate. }
  exists cols. split; [exact E|]. split.
  - intros n [<-|Hn]; [|auto]. rewrite B.
    + rewrite O1. destruct (string_dec _ _) as [_|]; [|congruence]. eexists. split; [reflexivity|]. split; [now rewrite map_length, seq_length|].
      intros i el Hi Hel. rewrite (nth_indep _ 0 (tc 0%nat)) by now rewrite map_length, seq_length. rewrite map_nth, seq_nth by auto. now apply F2.
    + intros n Hn K. apply key_inj in K; try (apply pnames_no_digit; cbn; tauto). destruct K as [_ ->]. contradiction.
  - intros k Hk. rewrite B by (intros; apply Hk; now right). rewrite O1. destruct (string_dec k _) as [->|]; [|reflexivity]. destruct (Hk m (or_introl eq_refl) eq_refl).
Qed.
