(** C08-C12: statements on whole parameter sets. *)
From Coq Require Import Reals String Ascii Arith Bool Lia Lra List.
From Verif Require Import Py PyFacts Params ParamsProofs ParamsSpec VectorProofs Kepler KeplerSpec Basis BasisNum
  BasisProofs BasisConv VConv BasisModel.
Import ListNotations.
Open Scope string_scope.
#[local] Arguments unkey : simpl never.
#[local] Arguments key : simpl never.

(** elements computed from values in basis [b] *)
Definition els (b : string) (val : string -> R) : elements :=
  match synth_of b (fun p => Ok (val p)) with
  | Ok (p, t, e, w, k) => mkEl p t e w k
  | Err _ => mkEl 0 0 0 0 0
  end.

Lemma els_ok b names val : In (b, names) FIT_BASES ->
  synth_of b (fun p => Ok (val p)) = Ok (el_tuple (els b val)).
Proof.
  intro HF. unfold els. fit_cases HF; unfold synth_of; eval_strings; reflexivity.
Qed.

Lemma els_meaning b names el : In (b, names) FIT_BASES -> in_domain el ->
  recovered names el (els b (meaning el)).
Proof.
  intros HF HD. destruct (synth_round_trip b names el HF HD) as (el' & A & B & C & D).
  assert (el_per el' = el_per el /\ el_e el' = el_e el /\ el_k el' = el_k el) as SH.
  { clear B C D. destruct HD as (Hp & Hk & He). destruct el as [per tp e w k], el' as [per' tp' e' w' k'].
    cbn [el_per el_tp el_e el_w el_k] in *.
    assert (sqrt e ^ 2 = e)%R as HSQ by (apply pow2_sqrt; lra).
    fit_cases HF; cbn -[np_arctan2 timetrans_to_timeperi timeperi_to_timetrans pow] in A;
      rewrite ?sq_polar, ?HSQ, ?(sqrt_pow2 e) in A by lra; rewrite ?exp_ln in A by lra;
      revert A; generalize per' tp' e' w' k'; clear; intros; injection A as -> _ -> _ ->; auto. }
  unfold els. rewrite A. destruct el'. split; auto.
Qed.

Lemma els_val b names val : In (b, names) FIT_BASES -> values_in_range names val ->
  forall p, In p names -> meaning (els b val) p = val p.
Proof.
  intros HF HD. destruct (meaning_round_trip b names val HF HD) as (el' & A & B & C).
  unfold els. rewrite A. destruct el'. auto.
Qed.

Lemma els_synth el : els "per tp e w k" (meaning el) = el.
Proof. destruct el; reflexivity. Qed.

(** ** C08 *)
Lemma convert_elements h ps b names b' names' (E : nat -> elements) :
  params_ok h ps b names -> In (b', names') FIT_BASES ->
  (forall n, (1 <= n <= ps_num ps)%nat -> in_domain (E n) /\ holds h ps names n (meaning (E n))) ->
  exists h' ps' out E', convert h ps b' = Ok (h', ps', Some out) /\
    params_ok h' out b' names' /\ ps_num out = ps_num ps /\
    forall n, (1 <= n <= ps_num ps)%nat -> recovered names (E n) (E' n) /\ holds h' out names' n (meaning (E' n)).
Proof.
  intros OK HF H. pose proof (po_fit _ _ _ _ OK) as HB.
  destruct (convert_main h ps b names b' names' (fun n => meaning (E n)) (fun n => els b (meaning (E n))) OK HF)
    as (h' & out & A1 & A2 & A3 & A4 & A5 & A6 & A7 & A8 & A9).
  - intros n Hn. apply H; auto.
  - intros n Hn. eapply els_ok; eauto.
  - exists h', (caller_after ps b'), out, (fun n => els b (meaning (E n))). split; auto. split; auto. split; auto.
    intros n Hn. split; auto. apply els_meaning; auto. apply H; auto.
Qed.

Lemma synth_and_back h ps b names noVary (E : nat -> elements) :
  params_ok h ps "per tp e w k" SYNTH -> ps_pp ps = SYNTH -> In (b, names) FIT_BASES ->
  (forall n, (1 <= n <= ps_num ps)%nat -> in_domain (E n) /\ holds h ps SYNTH n (meaning (E n))) ->
  exists h1 self out1 h2 out2 E', from_synth h (ps_basis ps) ps b false = Ok (h1, self, Some out1) /\
    to_synth h1 (ps_basis out1) out1 noVary None = Ok (h2, out2) /\
    forall n, (1 <= n <= ps_num ps)%nat ->
      holds h1 out1 names n (meaning (E n)) /\
      holds h2 out2 SYNTH n (meaning (E' n)) /\ recovered names (E n) (E' n).
Proof.
  intros OK PP HF H.
  destruct (from_synth_main h (ps_basis ps) ps b names E OK PP (po_num _ _ _ _ OK) HF)
    as (h1 & out1 & A1 & A2 & A3 & A4 & A5 & A6 & A7 & A8 & A9).
  { intros n Hn. apply H; auto. }
  destruct (to_synth_main h1 out1 b names noVary (fun n => meaning (E n)) (fun n => els b (meaning (E n))) A2)
    as (h2 & out2 & B1 & B2 & B3 & B4 & B5 & B6 & B7 & B8 & B9 & B10).
  - intros n Hn. apply A7. now rewrite <- A4.
  - intros n Hn. eapply els_ok; eauto.
  - exists h1, (self_after (ps_basis ps) b), out1, h2, out2, (fun n => els b (meaning (E n))). split; auto. split; auto.
    intros n Hn. split; auto. split; [apply B8; now rewrite A4|]. apply els_meaning; auto. now apply H.
Qed.

Lemma basis_and_back h ps b names noVary self (val : nat -> string -> R) :
  params_ok h ps b names -> b_num self = ps_num ps ->
  (forall n, (1 <= n <= ps_num ps)%nat -> values_in_range names (val n) /\ holds h ps names n (val n)) ->
  exists h1 out1 h2 self' out2, to_synth h (ps_basis ps) ps noVary None = Ok (h1, out1) /\
    from_synth h1 self out1 b false = Ok (h2, self', Some out2) /\
    forall n, (1 <= n <= ps_num ps)%nat -> holds h2 out2 names n (val n).
Proof.
  intros OK SN H. pose proof (po_fit _ _ _ _ OK) as HB.
  destruct (to_synth_main h ps b names noVary val (fun n => els b (val n)) OK)
    as (h1 & out1 & A1 & A2 & A3 & A4 & A5 & A6 & A7 & A8 & A9 & A10).
  - intros n Hn. now apply H.
  - intros n Hn. eapply els_ok; eauto.
  - destruct (from_synth_main h1 self out1 b names (fun n => els b (val n)) A2 A6)
      as (h2 & out2 & B1 & B2 & B3 & B4 & B5 & B6 & B7 & B8 & B9).
    + congruence.
    + auto.
    + intros n Hn. apply A8. now rewrite <- A4.
    + exists h1, out1, h2, (self_after self b), out2. split; auto. split; auto.
      intros n Hn p Hp. rewrite (B7 n) by (auto; rewrite A4; auto). f_equal. eapply els_val; eauto. now apply H.
Qed.

(** ** the example set *)
Lemma ex_items b names : ps_items (ex_ps b names) = combine (ex_keys names) (seq 0 13).
Proof. reflexivity. Qed.

Lemma nodup_strings (l : list string) : nodup string_dec l = l -> NoDup l.
Proof. intros <-. apply NoDup_nodup. Qed.

Lemma ex_params_ok b names val : In (b, names) FIT_BASES -> params_ok (ex_heap names val) (ex_ps b names) b names.
Proof.
  intro HF. split; auto.
  - intros k l Hin. apply in_combine_r in Hin. apply in_seq in Hin. fit_cases HF; cbn; lia.
  - apply nodup_strings. fit_cases HF; vm_compute; reflexivity.
  - intros n p Hn Hp. cbn in Hn. assert (n = 1 \/ n = 2)%nat as [-> | ->] by lia;
      fit_cases HF; vm_compute in Hp; repeat destruct Hp as [<-|Hp]; try contradiction; vm_compute; tauto.
Qed.

Lemma ex_holds b names val n : In (b, names) FIT_BASES -> (1 <= n <= 2)%nat ->
  holds (ex_heap names val) (ex_ps b names) names n (val n).
Proof.
  intros HF Hn p Hp. assert (n = 1 \/ n = 2)%nat as [-> | ->] by lia;
    fit_cases HF; vm_compute in Hp; repeat destruct Hp as [<-|Hp]; try contradiction; reflexivity.
Qed.

Lemma ex_strict b names : In (b, names) FIT_BASES -> strict (ex_ps b names) names.
Proof.
  intros HF n p Hn Hp Hk. cbn [ps_num ex_ps] in Hn.
  assert (forallb (fun n => forallb (fun p => negb (existsb (String.eqb (key p n)) (ex_keys names)) ||
            existsb (String.eqb p) names) PNAMES) [1; 2]%nat = true) as B by (fit_cases HF; vm_compute; reflexivity).
  rewrite forallb_forall in B. specialize (B n ltac:(cbn; lia)). rewrite forallb_forall in B. specialize (B p Hp).
  apply orb_true_iff in B. destruct B as [B|B].
  - apply negb_true_iff in B. assert (existsb (String.eqb (key p n)) (ex_keys names) = true) as B'; [|congruence].
    apply existsb_exists. exists (key p n). split; [|apply String.eqb_refl].
    assert (dkeys (ps_items (ex_ps b names)) = ex_keys names) as <-; auto.
    fit_cases HF; vm_compute; reflexivity.
  - apply existsb_exists in B. destruct B as (q & Hq & B). apply String.eqb_eq in B. now subst.
Qed.

Lemma ex_flags b names val : In (b, names) FIT_BASES -> flags_ok (ex_heap names val) (ex_ps b names).
Proof.
  intros HF k Hk. fit_cases HF; vm_compute in Hk; repeat destruct Hk as [<-|Hk]; try contradiction; eexists; eexists; split; reflexivity.
Qed.

(** refutation: at e = 0, tp moves *)
Lemma circular_tp_moves :
  exists h ps h1 ps1 out1 h2 ps2 out2,
    params_ok h ps "per tp e w k" SYNTH /\
    holds h ps SYNTH 1 (meaning (mkEl 1 0 0 PI 1)) /\
    convert h ps "per tc secosw sesinw k" = Ok (h1, ps1, Some out1) /\
    convert h1 out1 "per tp e w k" = Ok (h2, ps2, Some out2) /\
    value_at h2 out2 "tp1" = Some (- (1 / 2))%R.
Proof.
  set (S0 := "per tp e w k"). set (B1 := "per tc secosw sesinw k").
  set (el := mkEl 1 0 0 PI 1). set (val := fun _ : nat => meaning el).
  exists (ex_heap SYNTH val), (ex_ps S0 SYNTH).
  pose proof (ex_params_ok S0 SYNTH val synth_fit) as OK.
  assert (forall n, (1 <= n <= 2)%nat -> holds (ex_heap SYNTH val) (ex_ps S0 SYNTH) SYNTH n (meaning el)) as HH
    by (intros; now apply (ex_holds S0 SYNTH val n synth_fit)).
  assert (In (B1, ["per"; "tc"; "secosw"; "sesinw"; "k"]) FIT_BASES) as F1 by (cbn; tauto).
  assert (in_domain el) as HD by (unfold in_domain, el; cbn; lra).
  destruct (convert_main _ _ _ _ B1 _ (fun _ => meaning el) (fun _ => el) OK F1 HH) as (h1 & out1 & A1 & A2 & A3 & A4 & A5 & A6 & A7 & A8 & A9).
  { reflexivity. }
  destruct (convert_main h1 out1 B1 _ S0 SYNTH (fun _ => meaning el) (fun _ => els B1 (meaning el)) A2 synth_fit)
    as (h2 & out2 & C1 & C2 & C3 & C4 & C5 & C6 & C7 & C8 & C9).
  { rewrite A4. auto. }
  { intros. eapply els_ok; eauto. }
  exists h1, (caller_after (ex_ps S0 SYNTH) B1), out1, h2, (caller_after out1 S0), out2.
  split; auto. split; [apply HH; lia|]. split; auto. split; auto.
  change "tp1" with (key "tp" 1). rewrite (C7 1%nat); [|rewrite A4; cbn; lia|cbn; tauto].
  f_equal. unfold els, synth_of. eval_strings. cbn [bind]. unfold meaning at 1. cbn [el_tp].
  unfold el, meaning. eval_strings.
  rewrite sqrt_0, !Rmult_0_l, arctan2_00. replace (0 ^ 2 + 0 ^ 2)%R with 0%R by ring.
  unfold timeperi_to_timetrans, timetrans_to_timeperi.
  rewrite (proj2 (rleb_false 1 0)) by lra.
  assert (ee_of_f 0 (PI / 2 - PI) = - (PI / 2))%R as ->.
  { unfold ee_of_f. replace ((PI / 2 - PI) / 2)%R with (- (PI / 4))%R by field.
    unfold np_tan. destruct (Req_EM_T (cos (- (PI / 4))) 0) as [Z|_].
    - exfalso. rewrite cos_neg, cos_PI4 in Z. apply (Rlt_irrefl 0). rewrite <- Z at 2.
      apply Rdiv_lt_0_compat; [lra|]. apply sqrt_lt_R0; lra.
    - rewrite tan_neg, tan_PI4. replace ((1 - 0) / (1 + 0))%R with 1%R by field. rewrite sqrt_1.
      replace (- (1) * 1)%R with (- (1))%R by ring. rewrite atan_opp, atan_1. field. }
  assert (ee_of_f 0 (PI / 2 - 0) = PI / 2)%R as ->.
  { unfold ee_of_f. replace ((PI / 2 - 0) / 2)%R with (PI / 4)%R by field.
    unfold np_tan. destruct (Req_EM_T (cos (PI / 4)) 0) as [Z|_].
    - exfalso. rewrite cos_PI4 in Z. apply (Rlt_irrefl 0). rewrite <- Z at 2.
      apply Rdiv_lt_0_compat; [lra|]. apply sqrt_lt_R0; lra.
    - rewrite tan_PI4. replace ((1 - 0) / (1 + 0))%R with 1%R by field. rewrite sqrt_1, Rmult_1_r, atan_1. field. }
  field. apply PI_neq0.
Qed.

(** ** C09 *)
Lemma nth_synth el j : (j < 5)%nat -> meaning el (nth j SYNTH "") = el_at el j.
Proof. intro H. destruct el. destruct j as [|[|[|[|[|j]]]]]; try reflexivity. lia. Qed.

Lemma row_names b names x : In (b, names) FIT_BASES ->
  forall p, In p names -> x (nth (column p) names "") = (x p : R).
Proof.
  intros HF p Hp. apply In_nth_error in Hp. destruct Hp as [j Hj].
  rewrite (fit_column b names j p HF Hj). now rewrite (nth_error_nth _ _ "" Hj).
Qed.

Lemma to_synth_agree h ps b names noVary (val : nat -> string -> R) :
  params_ok h ps b names -> strict ps names -> flags_ok h ps ->
  (forall n, (1 <= n <= ps_num ps)%nat -> holds h ps names n (val n)) ->
  exists vec h' out v', vector_init h ps = Ok vec /\
    to_synth h (ps_basis ps) ps noVary None = Ok (h', out) /\
    v_to_synth (ps_basis ps) (v_vector vec) noVary None = Ok v' /\ length v' = length (v_vector vec) /\
    (forall i, (5 * ps_num ps <= i)%nat -> nth_error v' i = nth_error (v_vector vec) i) /\
    forall n j p, (1 <= n <= ps_num ps)%nat -> nth_error SYNTH j = Some p ->
      exists x, value_at h' out (key p n) = Some x /\ rowval v' (5 * (n - 1) + j) = Some x.
Proof.
  intros OK ST FL HV. pose proof (po_fit _ _ _ _ OK) as HB.
  destruct (strict_vector h ps b names val OK ST FL HV) as (vec & V1 & V2).
  destruct (to_synth_main h ps b names noVary val (fun n => els b (val n)) OK HV)
    as (h1 & out1 & A1 & A2 & A3 & A4 & A5 & A6 & A7 & A8 & A9 & A10).
  { intros n Hn. eapply els_ok; eauto. }
  destruct (v_to_synth_main b names (ps_basis ps) (v_vector vec) noVary None
      (fun n j => val (S n) (nth j names "")) (fun n => els b (val (S n))) HB (po_name _ _ _ _ OK))
    as (v' & C1 & C2 & C3 & C4).
  { intros n Hn. apply V2. now rewrite <- (po_num _ _ _ _ OK). }
  { intros n Hn. rewrite <- (els_ok b names (val (S n)) HB). eapply synth_of_names; eauto.
    intros p Hp. unfold row_getter. f_equal. eapply row_names; eauto. }
  exists vec, h1, out1, v'. split; auto. split; auto. split; auto. split; auto.
  split. { intros i Hi. apply C4. rewrite (po_num _ _ _ _ OK). auto. }
  intros n j p Hn Hj. exists (meaning (els b (val n)) p).
  assert (j < 5)%nat as Hj5. { change 5%nat with (length SYNTH). apply nth_error_Some. congruence. }
  split. { apply A8; auto. eapply nth_error_In; eauto. }
  rewrite Nat.add_comm. rewrite (C3 (n - 1)%nat); auto; [|rewrite (po_num _ _ _ _ OK); lia].
  replace (S (n - 1)) with n by lia. f_equal. rewrite <- nth_synth by auto. now rewrite (nth_error_nth _ _ "" Hj).
Qed.

Lemma from_synth_agree h ps b' names' (val : nat -> string -> R) :
  params_ok h ps "per tp e w k" SYNTH -> strict ps SYNTH -> flags_ok h ps -> ps_pp ps = SYNTH ->
  In (b', names') FIT_BASES ->
  (forall n, (1 <= n <= ps_num ps)%nat -> holds h ps SYNTH n (val n)) ->
  exists vec h' self' out v', vector_init h ps = Ok vec /\
    from_synth h (ps_basis ps) ps b' false = Ok (h', self', Some out) /\
    v_from_synth (ps_basis ps) (v_vector vec) b' = Ok v' /\ length v' = length (v_vector vec) /\
    (forall i, (5 * ps_num ps <= i)%nat -> nth_error v' i = nth_error (v_vector vec) i) /\
    forall n j p, (1 <= n <= ps_num ps)%nat -> nth_error names' j = Some p ->
      exists x, value_at h' out (key p n) = Some x /\ rowval v' (5 * (n - 1) + j) = Some x.
Proof.
  intros OK ST FL PP HF HV.
  destruct (strict_vector h ps _ _ val OK ST FL HV) as (vec & V1 & V2).
  set (E := fun n => els "per tp e w k" (val n)).
  assert (forall n p, In p SYNTH -> meaning (E n) p = val n p) as EM.
  { intros n p Hp. eapply els_val; eauto using synth_fit. intro H. cbn in H. intuition discriminate. }
  destruct (from_synth_main h (ps_basis ps) ps b' names' E OK PP (po_num _ _ _ _ OK) HF)
    as (h1 & out1 & A1 & A2 & A3 & A4 & A5 & A6 & A7 & A8 & A9).
  { intros n Hn p Hp. rewrite EM by auto. now apply HV. }
  destruct (v_from_synth_main b' names' (ps_basis ps) (v_vector vec) (fun n => E (S n)) HF)
    as (v' & C1 & C2 & C3 & C4).
  { intros n Hn j Hj. rewrite V2; auto; [|now rewrite <- (po_num _ _ _ _ OK)]. f_equal.
    rewrite <- nth_synth by auto. symmetry. apply EM. apply nth_In. exact Hj. }
  exists vec, h1, (self_after (ps_basis ps) b'), out1, v'. split; auto. split; auto. split; auto. split; auto.
  split. { intros i Hi. apply C4. rewrite (po_num _ _ _ _ OK). auto. }
  intros n j p Hn Hj. exists (meaning (E n) p).
  assert (j < 5)%nat as Hj5. { rewrite <- (fit_length _ _ HF). apply nth_error_Some. congruence. }
  split. { apply A7; auto. eapply nth_error_In; eauto. }
  rewrite Nat.add_comm. rewrite (C3 (n - 1)%nat); auto; [|rewrite (po_num _ _ _ _ OK); lia].
  replace (S (n - 1)) with n by lia. f_equal. now rewrite (nth_error_nth _ _ "" Hj).
Qed.

Lemma to_any_agree h ps b names b' names' (val : nat -> string -> R) :
  params_ok h ps b names -> strict ps names -> flags_ok h ps -> In (b', names') FIT_BASES ->
  (forall n, (1 <= n <= ps_num ps)%nat -> holds h ps names n (val n)) ->
  exists vec h' ps' out v', vector_init h ps = Ok vec /\
    convert h ps b' = Ok (h', ps', Some out) /\
    v_to_any_basis (ps_basis ps) (v_vector vec) b' = Ok v' /\ length v' = length (v_vector vec) /\
    (forall i, (5 * ps_num ps <= i)%nat -> nth_error v' i = nth_error (v_vector vec) i) /\
    forall n j p, (1 <= n <= ps_num ps)%nat -> nth_error names' j = Some p ->
      exists x, value_at h' out (key p n) = Some x /\ rowval v' (5 * (n - 1) + j) = Some x.
Proof.
  intros OK ST FL HF HV. pose proof (po_fit _ _ _ _ OK) as HB.
  destruct (strict_vector h ps b names val OK ST FL HV) as (vec & V1 & V2).
  destruct (convert_main h ps b names b' names' val (fun n => els b (val n)) OK HF HV)
    as (h1 & out1 & A1 & A2 & A3 & A4 & A5 & A6 & A7 & A8 & A9).
  { intros n Hn. eapply els_ok; eauto. }
  destruct (v_to_synth_main b names (ps_basis ps) (v_vector vec) true None
      (fun n j => val (S n) (nth j names "")) (fun n => els b (val (S n))) HB (po_name _ _ _ _ OK))
    as (v1 & C1 & C2 & C3 & C4).
  { intros n Hn. apply V2. now rewrite <- (po_num _ _ _ _ OK). }
  { intros n Hn. rewrite <- (els_ok b names (val (S n)) HB). eapply synth_of_names; eauto.
    intros p Hp. unfold row_getter. f_equal. eapply row_names; eauto. }
  destruct (v_from_synth_main b' names' (ps_basis ps) v1 (fun n => els b (val (S n))) HF C3)
    as (v' & D1 & D2 & D3 & D4).
  exists vec, h1, (caller_after ps b'), out1, v'. split; auto. split; auto.
  split. { unfold v_to_any_basis. rewrite C1. cbn [bind]. auto. }
  split; [congruence|].
  split. { intros i Hi. rewrite D4, C4; rewrite ?(po_num _ _ _ _ OK); auto. }
  intros n j p Hn Hj. exists (meaning (els b (val n)) p).
  assert (j < 5)%nat as Hj5. { rewrite <- (fit_length _ _ HF). apply nth_error_Some. congruence. }
  split. { apply A7; auto. eapply nth_error_In; eauto. }
  rewrite Nat.add_comm. rewrite (D3 (n - 1)%nat); auto; [|rewrite (po_num _ _ _ _ OK); lia].
  replace (S (n - 1)) with n by lia. f_equal. now rewrite (nth_error_nth _ _ "" Hj).
Qed.

(** ** C10 *)
Lemma convert_frame h ps b names b' names' (val : nat -> string -> R) :
  params_ok h ps b names -> In (b', names') FIT_BASES ->
  (forall n, (1 <= n <= ps_num ps)%nat -> holds h ps names n (val n)) ->
  exists h' ps' out, convert h ps b' = Ok (h', ps', Some out) /\
    ps_items ps' = ps_items ps /\ ps_num ps' = ps_num ps /\ ps_letters ps' = ps_letters ps /\
    (forall l, (l < length h)%nat -> nth_error h' l = nth_error h l) /\
    (forall k, In k (dkeys (ps_items ps)) -> get_param h' (ps_items ps') k = get_param h (ps_items ps) k) /\
    (forall k, non_orbital (ps_num ps) k -> get_param h' (ps_items out) k = get_param h (ps_items ps) k) /\
    ps_num out = ps_num ps /\ ps_letters out = ps_letters ps.
Proof.
  intros OK HF HV. pose proof (po_fit _ _ _ _ OK) as HB.
  destruct (convert_main h ps b names b' names' val (fun n => els b (val n)) OK HF HV)
    as (h1 & out1 & A1 & A2 & [t A3] & A4 & A5 & A6 & A7 & A8 & A9).
  { intros n Hn. eapply els_ok; eauto. }
  exists h1, (caller_after ps b'), out1. split; auto. split; auto. split; auto. split; auto.
  split. { intros l Hl. rewrite A3. now apply nth_error_app1. }
  split. { intros k Hk. rewrite A3. apply get_param_app. exact (po_locs _ _ _ _ OK). }
  split; [|now split].
  intros k Hk. unfold get_param. rewrite A8 by auto. destruct (dget (ps_items ps) k) as [l|] eqn:El; auto.
  rewrite A3. apply nth_error_app1. apply dget_in in El. eapply (po_locs _ _ _ _ OK); eauto.
Qed.

Lemma convert_own_planet h1 ps1 h2 ps2 b names b' names' (val1 val2 : nat -> string -> R) n n' :
  params_ok h1 ps1 b names -> params_ok h2 ps2 b names -> In (b', names') FIT_BASES ->
  (forall n, (1 <= n <= ps_num ps1)%nat -> holds h1 ps1 names n (val1 n)) ->
  (forall n, (1 <= n <= ps_num ps2)%nat -> holds h2 ps2 names n (val2 n)) ->
  (1 <= n <= ps_num ps1)%nat -> (1 <= n' <= ps_num ps2)%nat ->
  (forall p, In p names -> val1 n p = val2 n' p) ->
  exists h1' c1 out1 h2' c2 out2, convert h1 ps1 b' = Ok (h1', c1, Some out1) /\
    convert h2 ps2 b' = Ok (h2', c2, Some out2) /\
    forall p, In p names' -> value_at h1' out1 (key p n) = value_at h2' out2 (key p n').
Proof.
  intros OK1 OK2 HF HV1 HV2 Hn Hn' HE. pose proof (po_fit _ _ _ _ OK1) as HB.
  destruct (convert_main h1 ps1 b names b' names' val1 (fun n => els b (val1 n)) OK1 HF HV1)
    as (g1 & out1 & A1 & A2 & A3 & A4 & A5 & A6 & A7 & _).
  { intros m Hm. eapply els_ok; eauto. }
  destruct (convert_main h2 ps2 b names b' names' val2 (fun n => els b (val2 n)) OK2 HF HV2)
    as (g2 & out2 & B1 & B2 & B3 & B4 & B5 & B6 & B7 & _).
  { intros m Hm. eapply els_ok; eauto. }
  exists g1, (caller_after ps1 b'), out1, g2, (caller_after ps2 b'), out2. split; auto. split; auto.
  intros p Hp. rewrite (A7 n Hn p Hp), (B7 n' Hn' p Hp). do 2 f_equal.
  unfold els. rewrite (synth_of_names b names (fun p => Ok (val1 n p)) (fun p => Ok (val2 n' p))); auto.
  intros q Hq. f_equal. auto.
Qed.

Lemma to_synth_frame h ps b names noVary (val : nat -> string -> R) :
  params_ok h ps b names ->
  (forall n, (1 <= n <= ps_num ps)%nat -> holds h ps names n (val n)) ->
  exists h' out, to_synth h (ps_basis ps) ps noVary None = Ok (h', out) /\
    (forall l, (l < length h)%nat -> nth_error h' l = nth_error h l) /\
    (forall k, In k (dkeys (ps_items ps)) -> get_param h' (ps_items ps) k = get_param h (ps_items ps) k) /\
    (forall k, non_orbital (ps_num ps) k -> get_param h' (ps_items out) k = get_param h (ps_items ps) k) /\
    ps_num out = ps_num ps /\ ps_letters out = ps_letters ps.
Proof.
  intros OK HV. pose proof (po_fit _ _ _ _ OK) as HB.
  destruct (to_synth_main h ps b names noVary val (fun n => els b (val n)) OK HV)
    as (h1 & out1 & A1 & A2 & [t A3] & A4 & A5 & A6 & A7 & A8 & A9 & A10).
  { intros n Hn. eapply els_ok; eauto. }
  exists h1, out1. split; auto.
  split. { intros l Hl. rewrite A3. now apply nth_error_app1. }
  split. { intros k Hk. rewrite A3. apply get_param_app. exact (po_locs _ _ _ _ OK). }
  split; [|now split].
  intros k Hk. unfold get_param. rewrite A9 by auto. destruct (dget (ps_items ps) k) as [l|] eqn:El; auto.
  rewrite A3. apply nth_error_app1. apply dget_in in El. eapply (po_locs _ _ _ _ OK); eauto.
Qed.

(** ** C11 *)

(** conversions in sequence on one object: only its state after each call matters *)
Definition history (h : heap) (ps : params) (targets : list string) : res (heap * params) :=
  for_each targets (fun hp b => do (h', ps', _) <- convert (fst hp) (snd hp) b; Ok (h', ps')) (h, ps).

(** the object is still in basis [b] after converting to [b'] *)
Lemma self_after_name self b' : renames_self b' = false \/ b' = b_name self ->
  b_name (self_after self b') = b_name self /\ b_num (self_after self b') = b_num self.
Proof.
  intros H. unfold self_after. destruct (Nat.eqb (b_num self) 0); auto.
  destruct (renames_self b') eqn:R; [destruct H as [H| ->]; [discriminate|auto]|].
  destruct (String.eqb b' _); auto.
Qed.

Lemma caller_after_ok h ps b names b' : params_ok h ps b names -> renames_self b' = false \/ b' = b ->
  params_ok h (caller_after ps b') b names.
Proof.
  intros OK H. destruct (self_after_name (ps_basis ps) b') as [A B].
  { rewrite (po_name _ _ _ _ OK). auto. }
  destruct OK. split; auto; cbn [caller_after ps_basis ps_num ps_items]; congruence.
Qed.

Lemma params_ok_app h t ps b names : params_ok h ps b names -> params_ok (h ++ t)%list ps b names.
Proof. intros []. split; auto. intros. rewrite app_length. apply po_locs in H. lia. Qed.

Lemma holds_app h t ps b names n val : params_ok h ps b names -> holds h ps names n val -> holds (h ++ t)%list ps names n val.
Proof.
  intros OK H p Hp. unfold value_at. rewrite get_param_app; [now apply H|]. exact (po_locs _ _ _ _ OK).
Qed.

Lemma history_ok h ps b names targets (val : nat -> string -> R) :
  params_ok h ps b names ->
  (forall n, (1 <= n <= ps_num ps)%nat -> holds h ps names n (val n)) ->
  (forall b', In b' targets -> (exists names', In (b', names') FIT_BASES) /\ (renames_self b' = false \/ b' = b)) ->
  exists t ps', history h ps targets = Ok ((h ++ t)%list, ps') /\ params_ok (h ++ t)%list ps' b names /\
    ps_items ps' = ps_items ps /\ ps_num ps' = ps_num ps /\ ps_letters ps' = ps_letters ps.
Proof.
  revert h ps. induction targets as [|b1 r IH]; intros h ps OK HV HT.
  - exists [], ps. rewrite app_nil_r. split; auto.
  - unfold history. cbn [for_each fst snd].
    destruct (HT b1 (or_introl eq_refl)) as [[names1 F1] R1].
    destruct (convert_main h ps b names b1 names1 val (fun n => els b (val n)) OK F1 HV)
      as (h1 & out1 & A1 & A2 & [t A3] & _).
    { intros m Hm. eapply els_ok; eauto. apply (po_fit _ _ _ _ OK). }
    rewrite A1. cbn [bind]. subst h1.
    destruct (IH (h ++ t)%list (caller_after ps b1)) as (t2 & ps' & B1 & B2 & B3 & B4 & B5).
    + apply caller_after_ok; auto. now apply params_ok_app.
    + intros n Hn. assert (holds (h ++ t)%list ps names n (val n)) as Q by (eapply holds_app; eauto). exact Q.
    + intros; apply HT. now right.
    + exists (t ++ t2)%list, ps'. rewrite app_assoc. unfold history in B1. auto.
Qed.

Lemma convert_after_history h ps b names targets b2 names2 (val : nat -> string -> R) :
  params_ok h ps b names -> In (b2, names2) FIT_BASES ->
  (forall n, (1 <= n <= ps_num ps)%nat -> holds h ps names n (val n)) ->
  (forall b', In b' targets -> (exists names', In (b', names') FIT_BASES) /\ (renames_self b' = false \/ b' = b)) ->
  exists h1 ps1 h2 ps2 out2 h3 ps3 out3,
    history h ps targets = Ok (h1, ps1) /\
    convert h ps b2 = Ok (h2, ps2, Some out2) /\ convert h1 ps1 b2 = Ok (h3, ps3, Some out3) /\
    b_name (ps_basis out3) = b_name (ps_basis out2) /\ ps_num out3 = ps_num out2 /\
    ps_letters out3 = ps_letters out2 /\ ps_pp out3 = ps_pp out2 /\
    forall k, get_param h3 (ps_items out3) k = get_param h2 (ps_items out2) k.
Proof.
  intros OK HF HV HT. pose proof (po_fit _ _ _ _ OK) as HB.
  destruct (history_ok h ps b names targets val OK HV HT) as (t & ps1 & H1 & H2 & H3 & H4 & H5).
  destruct (convert_main h ps b names b2 names2 val (fun n => els b (val n)) OK HF HV)
    as (h2 & out2 & A1 & A2 & [t2 A3] & A4 & A5 & A6 & A7 & A8 & A9).
  { intros m Hm. eapply els_ok; eauto. }
  destruct (convert_main (h ++ t)%list ps1 b names b2 names2 val (fun n => els b (val n)) H2 HF)
    as (h3 & out3 & B1 & B2 & [t3 B3] & B4 & B5 & B6 & B7 & B8 & B9).
  { intros n Hn p Hp. rewrite H4 in Hn. unfold value_at. rewrite H3. rewrite get_param_app by exact (po_locs _ _ _ _ OK).
    now apply HV. }
  { intros m Hm. eapply els_ok; eauto. }
  exists (h ++ t)%list, ps1, h2, (caller_after ps b2), out2, h3, (caller_after ps1 b2), out3.
  split; auto. split; auto. split; auto.
  split. { now rewrite (po_name _ _ _ _ A2), (po_name _ _ _ _ B2). }
  split; [congruence|]. split; [congruence|]. split; [congruence|].
  intro k. destruct (planet_or_not (ps_num ps) k) as [(n & p & Hn & Hp & ->)|Hno].
  - rewrite <- !projv_get; auto; try exact (po_locs _ _ _ _ A2); try exact (po_locs _ _ _ _ B2).
    rewrite A9 by auto. rewrite B9 by (rewrite H4; auto). do 3 f_equal.
    rewrite H3. apply projv_app. exact (po_locs _ _ _ _ OK).
  - unfold get_param. rewrite A8 by auto. rewrite B8 by (rewrite H4; auto). rewrite H3.
    destruct (dget (ps_items ps) k) as [l|] eqn:El; auto.
    apply dget_in in El. apply (po_locs _ _ _ _ OK) in El.
    rewrite A3, B3, !nth_error_app1; auto; rewrite ?app_length; lia.
Qed.

(** a missing parameter makes the conversion fail *)
Lemma synth_of_missing b names g : In (b, names) FIT_BASES ->
  (forall p, In p names -> (exists x, g p = Ok x) \/ exists k, g p = Err (KeyError k)) ->
  (exists p, In p names /\ exists k, g p = Err (KeyError k)) ->
  exists k, synth_of b g = Err (KeyError k).
Proof.
  intros HF HG (p & Hp & k & Hk).
  fit_cases HF; unfold synth_of; eval_strings;
    repeat match goal with |- context [g ?q] =>
      let E := fresh "E" in
      destruct (HG q ltac:(cbn; tauto)) as [[? E]|[? E]]; rewrite E; cbn [bind]; [|eauto] end;
    exfalso; cbn in Hp; intuition (subst; congruence).
Qed.

Lemma convert_renamed h ps b names b1 names1 b2 (val : nat -> string -> R) :
  params_ok h ps b names -> strict ps names -> In (b1, names1) FIT_BASES -> b1 <> b ->
  renames_self b1 = true -> (1 <= ps_num ps)%nat ->
  (forall n, (1 <= n <= ps_num ps)%nat -> holds h ps names n (val n)) ->
  exists h1 ps1 out1 k, convert h ps b1 = Ok (h1, ps1, Some out1) /\
    convert h1 ps1 b2 = Err (KeyError k).
Proof.
  intros OK ST F1 NE RN N1 HV. pose proof (po_fit _ _ _ _ OK) as HB.
  destruct (convert_main h ps b names b1 names1 val (fun n => els b (val n)) OK F1 HV)
    as (h1 & out1 & A1 & A2 & [t A3] & A4 & A5 & A6 & A7 & A8 & A9).
  { intros m Hm. eapply els_ok; eauto. }
  exists h1, (caller_after ps b1), out1.
  assert (exists k, to_synth h1 (ps_basis (caller_after ps b1)) (caller_after ps b1) true None = Err (KeyError k)) as [k Q].
  2:{ exists k. split; auto. unfold convert, to_any_basis. rewrite Q. reflexivity. }
  unfold to_synth.
  destruct (copy_params h1 (caller_after ps b1)) as [h2 q].
  assert (b_name (ps_basis (caller_after ps b1)) = b1 /\ b_num (ps_basis (caller_after ps b1)) = ps_num ps) as [E1 E2].
  { cbn [caller_after ps_basis]. unfold self_after. rewrite RN. rewrite (po_num _ _ _ _ OK).
    replace (Nat.eqb (ps_num ps) 0) with false by (symmetry; apply Nat.eqb_neq; lia). auto. }
  rewrite E1, E2. destruct (ps_num ps) as [|m] eqn:EN; [lia|]. cbn [seq for_each].
  destruct (synth_of_missing b1 names1 (getpar h1 (ps_items (caller_after ps b1)) 1) F1) as [k Hk].
  - intros p Hp. cbn [caller_after ps_items]. unfold getpar.
    rewrite A3, get_param_app by exact (po_locs _ _ _ _ OK).
    destruct (get_param h (ps_items ps) (key p 1)) as [x|] eqn:G; [|eauto].
    assert (In p names) as Hpn.
    { refine (ST 1%nat p _ (fit_pnames b1 names1 p F1 Hp) _); [lia|]. unfold get_param in G.
      destruct (dget (ps_items ps) (key p 1)) eqn:D; [|discriminate]. exact (dget_key _ _ _ D). }
    specialize (HV 1%nat ltac:(lia) p Hpn). unfold value_at in HV. rewrite G in HV. rewrite HV. eauto.
  - cbn [caller_after ps_items].
    assert (exists p, In p names1 /\ ~ In p names) as (p & Hp & Hn).
    { assert (existsb (fun p => negb (existsb (String.eqb p) names)) names1 = true) as B.
      { assert (forallb (fun x => forallb (fun y => String.eqb (fst x) (fst y) ||
          existsb (fun p => negb (existsb (String.eqb p) (snd x))) (snd y)) FIT_BASES) FIT_BASES = true) as B
          by (vm_compute; reflexivity).
        rewrite forallb_forall in B. specialize (B _ HB). rewrite forallb_forall in B. specialize (B _ F1).
        cbn [fst snd] in B. apply orb_true_iff in B. destruct B as [B|B]; auto.
        apply String.eqb_eq in B. congruence. }
      apply existsb_exists in B. destruct B as (p & Hp & B). exists p. split; auto. intro Hc.
      apply negb_true_iff in B. assert (existsb (String.eqb p) names = true); [|congruence].
      apply existsb_exists. exists p. split; auto. apply String.eqb_refl. }
    exists p. split; auto. exists (key p 1). unfold getpar.
    assert (get_param h1 (ps_items ps) (key p 1) = None) as ->; auto.
    unfold get_param. destruct (dget (ps_items ps) (key p 1)) eqn:D; auto.
    exfalso. apply Hn. refine (ST 1%nat p _ (fit_pnames b1 names1 p F1 Hp) (dget_key _ _ _ D)). lia.
  - exists k. rewrite Hk. reflexivity.
Qed.

Lemma ex_domain n : in_domain (ex_E n) /\ (0 < el_e (ex_E n))%R.
Proof. unfold ex_E, in_domain. destruct (Nat.eqb n 1); cbn; lra. Qed.

Lemma ex_ready b names : In (b, names) FIT_BASES ->
  params_ok (ex_h names) (ex_ps b names) b names /\ strict (ex_ps b names) names /\
  flags_ok (ex_h names) (ex_ps b names) /\
  forall n, (1 <= n <= ps_num (ex_ps b names))%nat ->
    in_domain (ex_E n) /\ holds (ex_h names) (ex_ps b names) names n (meaning (ex_E n)).
Proof.
  intro HF. split; [now apply ex_params_ok|]. split; [now apply ex_strict|]. split; [now apply ex_flags|].
  intros n Hn. split; [apply ex_domain|]. now apply (ex_holds b names (fun n => meaning (ex_E n)) n).
Qed.

Lemma ex_range names n : values_in_range names (meaning (ex_E n)).
Proof. intros _. unfold ex_E. destruct (Nat.eqb n 1); cbn; apply sqrt_pos. Qed.
