(** C74: the theorems. *)
From Coq Require Import ZArith Reals String Arith Bool Lia Lra List.
From Verif Require Import Py PyFloat PyFacts Params ParamsProofs ParamsSpec VectorProofs Basis BasisNum BasisProofs BasisConv BasisModel BasisThms
  Likelihood Stats PostProc PostProcSpec PostProcProofs PostProcThms ParTable ParTableSpec ParTableProofs Derive RepChains RepChainsSpec RepChainsProofs.
Import ListNotations.
Open Scope R_scope.
Open Scope string_scope.

Section Main.
  Variables (h : heap) (ps : params) (b : string) (names : list string) (chains : table).
  Hypotheses (OK : ParamsSpec.params_ok h ps b names) (AV : all_values h ps) (TO : table_ok chains).
  Variable val : nat -> string -> R.
  Hypothesis HV : forall n, (1 <= n <= ps_num ps)%nat -> values_in_range names (val n) /\ holds h ps names n (val n).

  Lemma names_five p : In p names -> In p PNAMES. Proof. eapply fit_pnames. apply OK. Qed.

  Theorem report_main : exists h' q cols, report_init h ps b chains = Ok (h', q, cols, quantiles cols) /\
    (forall n p, (1 <= n <= ps_num ps)%nat -> In p PRINTED -> exists col, dget cols (key p n) = Some col /\ length col = t_len chains /\
       forall i, (i < t_len chains)%nat -> exists vals, (forall s, In s names -> sample_value chains h ps i (key s n) (vals s)) /\ nth i col 0 = meaning (els b vals) p) /\
    (forall k, ~ printed_key (ps_num ps) k ->
       (forall col, dget (t_cols chains) k = Some col -> dget cols k = Some col) /\
       (~ In k (dkeys (t_cols chains)) -> forall x, value_at h ps k = Some x -> dget cols k = Some (repeat x (t_len chains))) /\
       (~ In k (dkeys (t_cols chains)) -> ~ In k (dkeys (ps_items ps)) -> dget cols k = None)).
  Proof.
    assert (forall n, (1 <= n <= ps_num ps)%nat -> holds h ps names n (val n)) as HV1 by (intros; now apply HV).
    destruct (print_params h ps b names val OK HV1) as (h' & q & E & BN & NN & ND & P1 & P2).
    assert (forall k, In k (dkeys (ps_items q)) -> exists p x, get_param h' (ps_items q) k = Some p /\ p_value p = Some x) as AV'.
    { intros k Hk. assert (exists x, value_at h' q k = Some x) as [x Hx].
      { destruct (planet_or_not (ps_num ps) k) as [(n & p & Hn & Hp & ->)|Hno].
        - destruct (in_dec string_dec p PRINTED) as [H6|H6]; [eexists; now apply P1|].
          assert (~ printed_key (ps_num ps) (key p n)) as He.
          { intros (p' & n' & A & B & C). apply key_inj in C; try (apply pnames_no_digit; auto; now apply printed_pnames). destruct C as [-> _]. contradiction. }
          destruct (P2 _ He) as [Q1 Q2]. rewrite Q2. apply AV. now apply Q1.
        - assert (~ printed_key (ps_num ps) k) as He. { intros (p' & n' & A & B & ->). apply (Hno n' p'); auto. now apply printed_pnames. }
          destruct (P2 _ He) as [Q1 Q2]. rewrite Q2. apply AV. now apply Q1. }
      unfold value_at in Hx. destruct (get_param h' (ps_items q) k) as [p|]; [|discriminate]. eauto. }
    destruct (missing_loop h' (ps_items q) (dkeys (ps_items q)) (incl_refl _) AV' chains) as (t1 & E1 & L1 & G1).
    (* value of a fitted parameter in the filled table *)
    assert (forall n s, (1 <= n <= ps_num ps)%nat -> In s names -> value_at h' q (key s n) = value_at h ps (key s n)) as VN.
    { intros n s Hn Hs. rewrite (HV1 n Hn s Hs). pose proof (names_five s Hs) as HP. destruct (in_dec string_dec s PRINTED) as [H6|H6].
      - destruct (P1 n s Hn H6) as [_ ->]. f_equal. eapply els_val; [apply OK|now apply HV|exact Hs].
      - assert (~ printed_key (ps_num ps) (key s n)) as He.
        { intros (p' & n' & A & B & C). apply key_inj in C; try (apply pnames_no_digit; auto; now apply printed_pnames). destruct C as [-> _]. contradiction. }
        destruct (P2 _ He) as [_ ->]. now apply HV1. }
    assert (forall n s i, (1 <= n <= ps_num ps)%nat -> (i < t_len chains)%nat \/ i = 0%nat -> In s names -> exists x, entry t1 i n s = Ok x /\ ((i < t_len chains)%nat -> sample_value chains h ps i (key s n) x)) as EN.
    { intros n s i Hn Hi Hs. unfold entry, dget_res, sample_value. rewrite (G1 (key s n)). destruct (dget (t_cols chains) (key s n)) as [c|] eqn:Ec.
      - cbn. eexists. split; reflexivity.
      - assert (In (key s n) (dkeys (ps_items q))) as Hq. { eapply value_key. rewrite VN by auto. apply HV1; auto. }
        destruct (in_dec string_dec (key s n) (dkeys (ps_items q))) as [_|]; [|contradiction].
        pose proof (VN n s Hn Hs) as W. rewrite (HV1 n Hn s Hs) in *. unfold value_at in W. rewrite W. cbn. eexists. split; [reflexivity|].
        intro Hlt. f_equal. symmetry. rewrite <- (nth_repeat (val n s) (t_len chains) i) at 2.
        clear - Hlt. revert i Hlt. induction (t_len chains) as [|m IH]; intros [|i] Hlt; cbn; try lia; auto. rewrite IH by lia. now rewrite nth_repeat. }
    assert (forall n i, (1 <= n <= ps_num ps)%nat -> (i < t_len chains)%nat \/ i = 0%nat -> exists vals, synth_of b (entry t1 i n) = Ok (el_tuple (els b vals)) /\
              ((i < t_len chains)%nat -> forall s, In s names -> sample_value chains h ps i (key s n) (vals s))) as SY.
    { intros n i Hn Hi. exists (fun s => match entry t1 i n s with Ok x => x | Err _ => 0 end). split.
      - rewrite <- (els_ok b names) by apply OK. eapply synth_of_names; [apply OK|]. intros s Hs. destruct (EN n s i Hn Hi Hs) as (x & -> & _). reflexivity.
      - intros Hlt s Hs. destruct (EN n s i Hn Hi Hs) as (x & -> & Q). auto. }
    destruct (synth_total b t1 (seq 1 (ps_num ps))) with (out := t_cols t1) as [synth E2].
    { intros n Hn. apply in_seq in Hn. destruct (SY n 0%nat) as (v & S1 & _); [lia|auto|eauto]. }
    { intros n i Hn Hi. apply in_seq in Hn. destruct (SY n i) as (v & S1 & _); [lia|left; congruence|eauto]. }
    destruct (synth_loop b t1 (seq 1 (ps_num ps)) (seq_NoDup _ _) _ _ E2) as [C1 C2].
    set (t2 := mkTable (t_len t1) synth).
    destruct (print_loop t2 (seq 1 (ps_num ps)) (seq_NoDup _ _)) with (out := synth) as (cols & E3 & T1 & T2).
    { intros n Hn. cbn [t2 t_cols].
      destruct (C1 n "per" Hn ltac:(cbn; tauto)) as (c1 & -> & _). destruct (C1 n "e" Hn ltac:(cbn; tauto)) as (c2 & -> & _).
      destruct (C1 n "w" Hn ltac:(cbn; tauto)) as (c3 & -> & _). destruct (C1 n "tp" Hn ltac:(cbn; tauto)) as (c4 & -> & _). eauto 10. }
    { intros n w Hn Hw. cbn [t2 t_cols t_len] in *. destruct (C1 n "w" Hn ltac:(cbn; tauto)) as (c3 & Q & [L _]). congruence. }
    { reflexivity. }
    (* an element of a sample *)
    assert (forall n, (1 <= n <= ps_num ps)%nat -> forall i, (i < t_len chains)%nat -> exists vals,
       (forall s, In s names -> sample_value chains h ps i (key s n) (vals s)) /\ forall p, In p FIVE -> entry t2 i n p = Ok (meaning (els b vals) p)) as EL.
    { intros n Hn i Hi. destruct (SY n i Hn (or_introl Hi)) as (vals & S1 & S2). exists vals. split; [auto|]. intros p Hp.
      destruct (C1 n p) as (col & D1 & D2 & D3); [apply in_seq; lia|exact Hp|]. destruct (D3 i) as (el & F1 & F2); [lia|].
      unfold entry, dget_res. cbn [t2 t_cols]. rewrite D1. cbn [bind]. f_equal. rewrite F2. rewrite S1 in F1. injection F1 as <-.
      apply (els_get b names vals p); [apply OK|exact Hp]. }
    exists h', q, cols. split; [|split].
    - unfold report_init. rewrite E. cbn [bind]. unfold report_chains. unfold fill_missing. rewrite E1. cbn [bind]. rewrite BN. unfold to_synth_table. rewrite E2. cbn [bind].
      fold t2. unfold print_table. cbn [t2 t_cols]. rewrite E3. reflexivity.
    - intros n p Hn Hp. apply printed_split in Hp as [Hp| ->].
      + destruct (C1 n p) as (col & D1 & D2 & D3); [apply in_seq; lia|exact Hp|]. exists col.
        split; [|split; [congruence|]].
        * rewrite T2; [exact D1|]. intros m Hm K. apply key_inj in K; try (apply pnames_no_digit; auto using synth_pnames; cbn; tauto). destruct K as [-> _]. cbn in Hp. intuition discriminate.
        * intros i Hi. destruct (EL n Hn i Hi) as (vals & A & B). exists vals. split; [exact A|]. specialize (B p Hp). unfold entry, dget_res in B. cbn [t2 t_cols] in B. rewrite D1 in B. cbn in B. congruence.
      + destruct (T1 n) as (col & D1 & D2 & D3); [apply in_seq; lia|]. exists col. split; [exact D1|]. cbn [t2 t_len] in *. split; [congruence|].
        intros i Hi. destruct (EL n Hn i Hi) as (vals & A & B). exists vals. split; [exact A|]. apply D3; [congruence|exact B].
    - intros k Hk. assert (dget cols k = dget (t_cols t1) k) as K.
      { rewrite T2; [apply C2|]; intros n; [intros p Hn Hp ->|intros Hn ->]; apply Hk; apply in_seq in Hn; [exists p, n|exists "tc", n].
        - split; [|split; [lia|reflexivity]]. clear - Hp. cbn in *. intuition.
        - split; [cbn; tauto|split; [lia|reflexivity]]. }
      rewrite K, G1. destruct (P2 k Hk) as [Q1 Q2]. split; [|split].
      + intros col ->. reflexivity.
      + intros Hn x Hx. apply dget_none in Hn. rewrite Hn. destruct (in_dec string_dec k (dkeys (ps_items q))) as [_|N]; [|destruct N; apply Q1; eapply value_key; eauto].
        rewrite <- Q2 in Hx. unfold value_at in Hx. rewrite Hx. reflexivity.
      + intros Hn Hm. apply dget_none in Hn. rewrite Hn. destruct (in_dec string_dec k (dkeys (ps_items q))) as [Y|]; [|reflexivity]. destruct Hm. now apply Q1.
  Qed.
End Main.

(** parameters of the fit that are printed are not changed *)
Theorem report_fitted h ps b names chains val : ParamsSpec.params_ok h ps b names -> all_values h ps -> table_ok chains ->
  (forall n, (1 <= n <= ps_num ps)%nat -> values_in_range names (val n) /\ holds h ps names n (val n)) ->
  (forall n col x, dget (t_cols chains) (key "se" n) = Some col -> In x col -> 0 <= x) ->
  exists h' q cols, report_init h ps b chains = Ok (h', q, cols, quantiles cols) /\
  forall n p, (1 <= n <= ps_num ps)%nat -> In p names ->
    (forall col, dget (t_cols chains) (key p n) = Some col -> dget cols (key p n) = Some col) /\
    (~ In (key p n) (dkeys (t_cols chains)) -> dget cols (key p n) = Some (repeat (val n p) (t_len chains))).
Proof.
  intros OK AV TO HV SE. destruct (report_main h ps b names chains OK AV val HV) as (h' & q & cols & E & A & B).
  exists h', q, cols. split; [exact E|]. intros n p Hn Hp.
  destruct (in_dec string_dec p PRINTED) as [H6|H6].
  - destruct (A n p Hn H6) as (col & D & L & V).
    assert (forall i, (i < t_len chains)%nat -> sample_value chains h ps i (key p n) (nth i col 0)) as S.
    { intros i Hi. destruct (V i Hi) as (vals & W & ->). rewrite (els_val b names vals); [now apply W|apply OK| |exact Hp].
      intro Hse. specialize (W "se" Hse). unfold sample_value in W. destruct (dget (t_cols chains) (key "se" n)) as [c|] eqn:Ec.
      - rewrite W. eapply SE; [exact Ec|]. apply nth_In. now rewrite (TO _ _ Ec).
      - destruct (HV n Hn) as [R H]. rewrite (H "se" Hse) in W. injection W as <-. apply R; exact Hse. }
    rewrite D. split.
    + intros c Hc. f_equal. apply (nth_ext _ _ 0 0); [now rewrite L, (TO _ _ Hc)|]. intros i Hi. rewrite L in Hi. specialize (S i Hi). unfold sample_value in S. now rewrite Hc in S.
    + intro Hno. apply dget_none in Hno. f_equal. apply (nth_ext _ _ 0 0); [now rewrite L, repeat_length|]. intros i Hi. rewrite L in Hi. specialize (S i Hi). unfold sample_value in S. rewrite Hno in S.
      destruct (HV n Hn) as [_ H]. rewrite (H p Hp) in S. injection S as <-.
      clear - Hi. revert i Hi. induction (t_len chains) as [|m IH]; intros [|i] Hi; cbn; try lia; auto. apply IH. lia.
  - assert (~ printed_key (ps_num ps) (key p n)) as He.
    { assert (In p PNAMES) as HP by (eapply fit_pnames; [apply OK|exact Hp]).
      intros (p' & n' & X & Y & C). apply key_inj in C; try (apply pnames_no_digit; auto; now apply printed_pnames). destruct C as [-> _]. contradiction. }
    destruct (B _ He) as (B1 & B2 & _). split; [exact B1|]. intro Hno. apply B2; [exact Hno|]. now apply HV.
Qed.

(** quantiles *)
Lemma quantiles_get cols k : dget (quantiles cols) k = option_map three_quantiles (dget cols k).
Proof. induction cols as [|[a c] l IH]; [reflexivity|]. cbn. destruct (String.eqb k a); auto. Qed.

(** joining *)
Definition not_suffixed (dcols : dict (list R)) (k : string) : Prop := forall k', In k' (dkeys dcols) -> k <> k' ++ "_derived".
Lemma join_get t dcols k : NoDup (dkeys dcols) -> not_suffixed dcols k ->
  dget (t_cols (join_derived t dcols)) k = match dget (t_cols t) k with Some c => Some c | None => dget dcols k end.
Proof.
  intros ND NS. unfold join_derived. cbn [t_cols].
  assert (forall (l out : dict (list R)), NoDup (dkeys l) -> incl (dkeys l) (dkeys dcols) ->
    dget (fold_left (fun o kc => dset o (if dmem (t_cols t) (fst kc) then fst kc ++ "_derived" else fst kc) (snd kc)) l out) k =
    if dmem (t_cols t) k then dget out k else match dget l k with Some c => Some c | None => dget out k end) as U.
  { induction l as [|[a c] l IH]; intros out N I; [cbn; now destruct (dmem _ _)|]. cbn [fold_left fst snd dget]. inversion N; subst.
    assert (In a (dkeys dcols)) as Ha by (apply I; now left).
    rewrite IH; [|auto|intros x Hx; apply I; now right]. rewrite dget_dset.
    destruct (dmem (t_cols t) a) eqn:Da.
    - pose proof (NS a Ha) as Q. apply String.eqb_neq in Q. rewrite Q. destruct (String.eqb_spec k a) as [->|]; [now rewrite Da|reflexivity].
    - destruct (String.eqb_spec k a) as [->|]; [|reflexivity]. rewrite Da. destruct (dget l a) eqn:Q; [|reflexivity]. destruct H1. eapply dget_key; eauto. }
  rewrite U by auto using incl_refl. unfold dmem. destruct (dget (t_cols t) k); [reflexivity|]. now destruct (dget dcols k).
Qed.

(** derived parameters are reported as they were derived *)
Theorem report_derived h ps b names chains dcols val : ParamsSpec.params_ok h ps b names -> all_values h ps ->
  (forall n, (1 <= n <= ps_num ps)%nat -> values_in_range names (val n) /\ holds h ps names n (val n)) -> NoDup (dkeys dcols) ->
  exists h' q cols, report_init h ps b (join_derived chains dcols) = Ok (h', q, cols, quantiles cols) /\
  forall k col, dget dcols k = Some col -> ~ In k (dkeys (t_cols chains)) -> ~ printed_key (ps_num ps) k -> (forall k', In k' (dkeys dcols) -> k <> k' ++ "_derived") ->
    dget cols k = Some col /\ dget (quantiles cols) k = Some (three_quantiles col).
Proof.
  intros OK AV HV ND. destruct (report_main h ps b names (join_derived chains dcols) OK AV val HV) as (h' & q & cols & E & A & B).
  exists h', q, cols. split; [exact E|]. intros k col Hc Hn Hp Hs. destruct (B k Hp) as (B1 & _).
  assert (dget cols k = Some col) as Q. { apply B1. rewrite join_get by auto. apply dget_none in Hn. now rewrite Hn. }
  split; [exact Q|]. now rewrite quantiles_get, Q.
Qed.
