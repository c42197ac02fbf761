(** C68: the theorems. *)
From Coq Require Import ZArith Reals String Ascii Arith Bool Lia Lra List Permutation.
From Verif Require Import Py PyFloat PyFacts Params ParamsProofs Likelihood Stats StatsProofs DecorrSpec DecorrProofs PostProc PostProcProofs PostProcThms ParTable ParTableSpec ParTableProofs ParTableThms
  TexProofs DerivTab DerivTabSpec DerivTabProofs.
Import ListNotations.
Open Scope R_scope.
Open Scope string_scope.

Lemma null_in k nulls : existsb (String.eqb k) nulls = true <-> In k nulls.
Proof.
  rewrite existsb_exists. split; [intros (x & H & E); apply String.eqb_eq in E; now subst|]. intro H. exists k. split; [auto|apply String.eqb_refl].
Qed.
Lemma usable_in chains nulls k : usable chains nulls k = true <-> In k (dkeys chains) /\ ~ In k nulls.
Proof.
  unfold usable. rewrite andb_true_iff, negb_true_iff. split.
  - intros [A B]. apply dmem_dget in A as [v A]. split; [eapply dget_key; eauto|]. intro H. apply null_in in H. congruence.
  - intros [A B]. split; [apply dmem_dget; now apply dget_some_key|]. destruct (existsb _ nulls) eqn:X; [|reflexivity]. apply null_in in X. contradiction.
Qed.

Section Plot.
  Variables (n : nat) (letters : option (list (nat * string))) (nulls : list string) (chains : dict (list R)) (dp : dplot).
  Hypothesis E : derived_plot n letters nulls chains = Ok dp.

  Theorem plot_labels : map d_label (snd dp) = filter (usable chains nulls) (numbered DERIVED n).
  Proof.
    destruct (derived_plot_inv _ _ _ _ _ E) as (lt & _ & ->). destruct (dp_fold nulls lt (dpairs n) (dpairs_nodup n) (chains, [])) as (_ & _ & ->). cbn [fst snd app].
    rewrite <- (pairs_numbered DERIVED n). change (pairs DERIVED n) with (dpairs n). clear E. induction (dpairs n) as [|pi L IH]; [reflexivity|]. cbn [flat_map map filter].
    rewrite map_app, IH. unfold entry_for, usable, dmem, pkey. destruct (dget chains (key (fst pi) (snd pi))); cbn [andb]; [|reflexivity]. destruct (existsb _ nulls); reflexivity.
  Qed.
  Theorem plot_entry p i col : In p DERIVED -> (1 <= i <= n)%nat -> dget chains (key p i) = Some col -> ~ In (key p i) nulls ->
    exists l u col', dletter letters i l /\ dget (fst dp) (key p i) = Some col' /\ shown_as p col col' u /\ In (mkDlabel (key p i) (Some (dtex p l)) u) (snd dp).
  Proof.
    intros Hp Hi G NN. destruct (derived_plot_inv _ _ _ _ _ E) as (lt & LT & ->). destruct (dp_fold nulls lt (dpairs n) (dpairs_nodup n) (chains, [])) as (_ & B & C). cbn [fst snd app] in B, C.
    assert (In (p, i) (dpairs n)) as HI by now apply in_dpairs. assert (existsb (String.eqb (key p i)) nulls = false) as NX by (destruct (existsb _ nulls) eqn:X; [apply null_in in X; contradiction|reflexivity]).
    exists (lt i), (unit_for p col), (new_col nulls p (key p i) col). split; [auto|]. split; [pose proof (B _ HI) as BB; unfold pkey in BB; cbn [fst snd] in BB; rewrite BB, G; reflexivity|]. split.
    - unfold new_col, unit_for. rewrite NX. destruct Hp as [<-|[<-|[<-|[]]]]; cbn [String.eqb Ascii.eqb Bool.eqb andb negb]; unfold shown_as.
      + destruct (rltb 100 (median col)) eqn:RM; [apply rltb_t in RM|apply rltb_f in RM]; auto 10.
      + auto 10.
      + auto 10.
    - rewrite C. apply in_flat_map. exists (p, i). split; [exact HI|]. unfold entry_for, pkey. cbn [fst snd]. rewrite G, NX. left. now rewrite texlabel_key.
  Qed.
  Theorem plot_keeps k : (forall i, (1 <= i <= n)%nat -> k <> key "mpsini" i) \/ In k nulls -> dget (fst dp) k = dget chains k.
  Proof.
    intro H. destruct (derived_plot_inv _ _ _ _ _ E) as (lt & LT & ->). destruct (dp_fold nulls lt (dpairs n) (dpairs_nodup n) (chains, [])) as (A & B & _). cbn [fst snd app] in A, B.
    destruct (in_dec string_dec k (map pkey (dpairs n))) as [HI|]; [|auto]. apply in_map_iff in HI as ([p i] & <- & HI). rewrite (B _ HI). unfold pkey. cbn [fst snd]. unfold pkey in H. cbn [fst snd] in H.
    destruct (dget chains (key p i)) as [col|]; [|reflexivity]. cbn [option_map]. f_equal. unfold new_col. destruct H as [H|H].
    - destruct (String.eqb_spec p "mpsini") as [->|]; [|reflexivity]. apply in_dpairs in HI as [_ HI]. destruct (H i HI eq_refl).
    - apply null_in in H. rewrite H. rewrite andb_false_r. reflexivity.
  Qed.
  Lemma plot_from e : In e (snd dp) -> exists p i col l, In p DERIVED /\ (1 <= i <= n)%nat /\ dget chains (key p i) = Some col /\ ~ In (key p i) nulls /\ dletter letters i l /\
    d_label e = key p i /\ d_tex e = Some (dtex p l) /\ exists col', dget (fst dp) (key p i) = Some col' /\ shown_as p col col' (d_unit e).
  Proof.
    destruct (derived_plot_inv _ _ _ _ _ E) as (lt & LT & ->). destruct (dp_fold nulls lt (dpairs n) (dpairs_nodup n) (chains, [])) as (_ & B & C). cbn [fst snd app] in B, C. rewrite C.
    intro H. apply in_flat_map in H as ([p i] & HI & H). pose proof (B _ HI) as G'. pose proof HI as HI'. apply in_dpairs in HI' as [Hp Hi]. unfold entry_for, pkey in *. cbn [fst snd] in *.
    destruct (dget chains (key p i)) as [col|] eqn:G; [|destruct H]. destruct (existsb _ nulls) eqn:X; [destruct H|]. destruct H as [<-|[]]. cbn [d_label d_tex d_unit].
    exists p, i, col, (lt i). assert (~ In (key p i) nulls) as NN by (intro Y; apply null_in in Y; congruence). repeat (split; [auto; fail|]). rewrite texlabel_key by auto.
    repeat (split; [auto; fail|]). cbn [option_map] in G'. eexists. split; [exact G'|].
    unfold new_col, unit_for. rewrite X. destruct Hp as [<-|[<-|[<-|[]]]]; cbn [String.eqb Ascii.eqb Bool.eqb andb negb]; unfold shown_as; auto 10.
    destruct (rltb 100 (median col)) eqn:RM; [apply rltb_t in RM|apply rltb_f in RM]; auto 10.
  Qed.
  Theorem never_sun e : In e (snd dp) -> d_unit e <> SUN.
  Proof. intros H U. destruct (plot_from e H) as (p & i & col & l & _ & _ & _ & _ & _ & _ & _ & col' & _ & SH). rewrite U in SH. unfold shown_as in SH. intuition discriminate. Qed.
  Lemma plot_dmem k : dmem (fst dp) k = dmem chains k.
  Proof.
    destruct (derived_plot_inv _ _ _ _ _ E) as (lt & LT & ->). destruct (dp_fold nulls lt (dpairs n) (dpairs_nodup n) (chains, [])) as (A & B & _). cbn [fst snd app] in A, B. unfold dmem.
    destruct (in_dec string_dec k (map pkey (dpairs n))) as [HI|NI]; [|now rewrite A]. apply in_map_iff in HI as (pi & <- & HI). rewrite (B _ HI). destruct (dget chains (pkey pi)); reflexivity.
  Qed.
End Plot.

(** ** quantiles *)
Lemma quantile_scale q k l : 0 < k -> quantile q (map (fun x => x * k) l) = quantile q l * k.
Proof.
  intro Hk. unfold quantile. rewrite map_length. set (f := fun x => x * k). rewrite sort_map by (intros; unfold f; nra).
  assert (forall i s, nth i (map f s) 0 = f (nth i s 0)) as N by (intros i s; replace 0 with (f 0) at 1 by (unfold f; ring); apply map_nth).
  rewrite !N. unfold f. ring.
Qed.
Lemma median_scale k l : 0 < k -> median (map (fun x => x * k) l) = median l * k.
Proof.
  intro Hk. unfold median. rewrite map_length. set (f := fun x => x * k). rewrite sort_map by (intros; unfold f; nra).
  assert (forall i s, nth i (map f s) 0 = f (nth i s 0)) as N by (intros i s; replace 0 with (f 0) at 1 by (unfold f; ring); apply map_nth).
  rewrite !N. unfold f. destruct (Nat.even _); field.
Qed.
Lemma quantiles_get chains k : dget (quantiles chains) k = option_map (fun c => (quantile (159 / 1000) c, quantile (1 / 2) c, quantile (841 / 1000) c)) (dget chains k).
Proof. unfold quantiles. induction chains as [|[k' c] r IH]; [reflexivity|]. cbn [map dget fst snd]. destruct (String.eqb k k'); [reflexivity|exact IH]. Qed.
Lemma quantiles_dmem chains k : dmem (quantiles chains) k = dmem chains k.
Proof. unfold dmem. rewrite quantiles_get. destruct (dget chains k); reflexivity. Qed.

(** ** the most probable sample *)
Lemma idxmax_from_spec l : forall done i best x, i = length done -> (best < i)%nat -> x = nth best done 0 ->
  (forall j, (j < i)%nat -> nth j done 0 <= x) -> (forall j, (j < best)%nat -> nth j done 0 < x) -> first_max (done ++ l) (idxmax_from l i best x).
Proof.
  induction l as [|y l IH]; intros done i best x -> HB -> H1 H2; cbn [idxmax_from].
  - rewrite app_nil_r. split; [exact HB|]. auto.
  - assert ((done ++ y :: l) = ((done ++ [y]) ++ l))%list as -> by now rewrite <- app_assoc.
    destruct (rltb (nth best done 0) y) eqn:RL; [apply rltb_t in RL|apply rltb_f in RL]; apply IH.
    + rewrite app_length. cbn. lia.
    + lia.
    + now rewrite nth_middle.
    + intros j Hj. destruct (Nat.eq_dec j (length done)) as [->|]; [rewrite nth_middle; lra|]. rewrite app_nth1 by lia. assert (j < length done)%nat as HJ by lia. specialize (H1 j HJ). lra.
    + intros j Hj. rewrite app_nth1 by lia. specialize (H1 j Hj). lra.
    + rewrite app_length. cbn. lia.
    + lia.
    + now rewrite app_nth1 by lia.
    + intros j Hj. destruct (Nat.eq_dec j (length done)) as [->|]; [rewrite nth_middle; lra|]. rewrite app_nth1 by lia. apply H1. lia.
    + intros j Hj. rewrite app_nth1 by lia. now apply H2.
Qed.
Lemma idxmax_spec l i : idxmax l = Ok i -> first_max l i.
Proof.
  destruct l as [|x l]; [discriminate|]. cbn. intros [= <-]. apply (idxmax_from_spec l [x] 1 0 x); auto.
  - intros j Hj. assert (j = 0)%nat as -> by lia. cbn. lra.
  - intros; lia.
Qed.

(** ** the table *)
Lemma letter_total letters i : (exists l, dletter letters i l) -> exists l, letter_at letters i = Ok l.
Proof.
  intros (l & a & b & E & NI). unfold letter_at. change default_letters with (combine (seq 1 10) ["b"; "c"; "d"; "e"; "f"; "g"; "h"; "i"; "j"; "k"]). rewrite E. clear E.
  induction a as [|[m x] a IH]; cbn [app find fst snd]; [rewrite Nat.eqb_refl; eauto|]. destruct (Nat.eqb_spec m i); [eauto|]. apply IH. cbn in NI. tauto.
Qed.
Lemma derived_plot_total n letters nulls chains : (forall i, (1 <= i <= n)%nat -> exists l, dletter letters i l) -> exists dp, derived_plot n letters nulls chains = Ok dp.
Proof.
  intro H. unfold derived_plot. assert (forall i, In i (seq 1 n) -> exists l, letter_at letters i = Ok l) as H' by (intros i Hi; apply letter_total, H; apply in_seq in Hi; lia).
  clear H. revert H'. generalize (chains, @nil dlabel). generalize (seq 1 n). induction l as [|i l IH]; intros st H; [cbn; eauto|]. cbn [for_each]. destruct (H i) as [x ->]; [now left|]. cbn [bind]. apply IH. intros; apply H; now right.
Qed.
Lemma key_last p i : (1 <= i <= 9)%nat -> exists c, key p i = p ++ String c "".
Proof. intro H. do 10 (destruct i as [|i]; [try lia; eexists; reflexivity|]). lia. Qed.
Lemma key_butlast p i : (1 <= i <= 9)%nat -> butlast (key p i) = p.
Proof. intro H. destruct (key_last p i H) as [c ->]. apply butlast_snoc. Qed.
Lemma keys_nodup S n : NoDup S -> (forall p, In p S -> In p DERIVED) -> NoDup (numbered S n).
Proof.
  intros NS HS. unfold numbered. assert (NoDup (seq 1 n)) as ND by apply seq_NoDup. revert ND. generalize (seq 1 n) as s. induction s as [|i s IH]; intro ND; [constructor|]. inversion ND; subst.
  cbn [flat_map]. apply VectorProofs.NoDup_app2; [|auto|].
  - clear - NS HS. induction S as [|p S IH]; [constructor|]. inversion NS; subst. cbn [map]. constructor; [|apply IH; auto; intros; apply HS; now right].
    intro H. apply in_map_iff in H as (q & E & Hq). apply key_inj in E as [-> _]; [contradiction| |]; apply derived_no_digit, HS; [now right|now left].
  - intros k Ha Hb. apply in_map_iff in Ha as (p & <- & Hp). apply in_flat_map in Hb as (j & Hj & Hb). apply in_map_iff in Hb as (q & E & Hq).
    apply key_inj in E as [-> ->]; [contradiction| |]; apply derived_no_digit, HS; assumption.
Qed.
Lemma best_values (chains : dict (list R)) lp j : dget chains "lnprobability" = Some lp -> idxmax lp = Ok j -> forall labels, (forall k, In k labels -> In k (dkeys chains)) -> forall d,
  exists d', for_each labels (fun d par => do lp <- dget_res chains "lnprobability"; do i <- idxmax lp; do col <- dget_res chains par; Ok (dset d par (nth i col 0))) d = Ok d' /\
    forall k, dget d' k = if existsb (String.eqb k) labels then option_map (fun col => nth j col 0) (dget chains k) else dget d k.
Proof.
  intros GL EJ. induction labels as [|k0 labels IH]; intros HL d; [exists d; cbn; auto|]. cbn [for_each]. unfold dget_res at 1. rewrite GL. cbn [bind]. rewrite EJ. cbn [bind].
  unfold dget_res at 1. destruct (dget_some_key chains k0) as [col Hc]; [apply HL; now left|]. rewrite Hc. cbn [bind]. destruct (IH ltac:(intros; apply HL; now right) (dset d k0 (nth j col 0))) as (d' & E & G).
  exists d'. split; [exact E|]. intro k. rewrite G. cbn [existsb]. destruct (String.eqb_spec k k0) as [->|NE]; cbn [orb].
  - destruct (existsb _ labels); [reflexivity|]. rewrite dget_dset_same, Hc. reflexivity.
  - destruct (existsb _ labels); [reflexivity|]. now rewrite dget_dset_other.
Qed.

Lemma derived_one_word p : In p DERIVED -> one_word p.
Proof. intros [<-|[<-|[<-|[]]]]; apply one_word_dec; reflexivity. Qed.

Section Table.
  Variables (T : Type) (setorder : list string -> list string).
  Variables (geterr : list R -> res T) (of_quantiles : R * R * R -> T) (show : T -> R -> option (R * R * R) -> res string).
  Variables (n : nat) (letters : option (list (nat * string))) (nulls : list string) (chains : dict (list R)) (maxparams : dict R) (latex units : dict string) (suffixes : list string) (lp : list R).
  Hypothesis SO : set_order setorder.
  Hypothesis FM : formats (list R) (R * R * R) T R geterr show.
  Hypothesis N9 : (n <= 9)%nat.
  Hypothesis LT : forall i, (1 <= i <= n)%nat -> exists l, dletter letters i l.
  Hypothesis LP : dget chains "lnprobability" = Some lp.
  Hypothesis LN : lp <> [].
  Hypothesis NC : forall p, In p DERIVED -> ~ In p (dkeys chains) /\ ~ In p (dkeys units).
  Hypothesis NL : forall k, In k (numbered DERIVED n) -> ~ In k (dkeys latex).

  Theorem derived_table : exists chains' rows j,
    tab_derived T setorder geterr of_quantiles show n letters nulls chains maxparams latex units suffixes = Ok (chains', rows) /\
    Permutation (map w_key rows) (filter (usable chains nulls) (numbered DERIVED n)) /\ first_max lp j /\
    forall r, In r rows -> exists p i col col' l, In p DERIVED /\ (1 <= i <= n)%nat /\ w_key r = key p i /\ dget chains (key p i) = Some col /\ ~ In (key p i) nulls /\
      shown_as p col col' (w_unit r) /\ dletter letters i l /\ w_tex r = dtex p l /\
      let q := (quantile (159 / 1000) col', quantile (1 / 2) col', quantile (841 / 1000) col') in
      show (of_quantiles q) (nth j col' 0) (Some q) = Ok (w_text r).
  Proof.
    destruct (derived_plot_total n letters nulls chains LT) as [dp E]. destruct (idxmax lp) as [j|] eqn:EJ; [|destruct lp; [contradiction|discriminate]].
    pose proof (plot_labels _ _ _ _ _ E) as PL. pose proof (plot_dmem _ _ _ _ _ E) as PM.
    assert (NoDup (map d_label (snd dp))) as NDL by (rewrite PL; apply NoDup_filter, keys_nodup; [repeat constructor; cbn; intuition discriminate|auto]).
    assert (dget (fst dp) "lnprobability" = Some lp) as LP'.
    { rewrite (plot_keeps _ _ _ _ _ E); [exact LP|]. left. intros i _. unfold key. cbn. discriminate. }
    assert (forall k, In k (map d_label (snd dp)) -> In k (dkeys (fst dp))) as LK.
    { intros k Hk. rewrite PL in Hk. apply filter_In in Hk as [_ Hk]. unfold usable in Hk. apply andb_true_iff in Hk as [Hk _]. rewrite <- PM in Hk. apply dmem_dget in Hk as [v Hk]. eapply dget_key; eauto. }
    destruct (best_values (fst dp) lp j LP' EJ (map d_label (snd dp)) LK maxparams) as (mp & EM & GM).
    unfold tab_derived. rewrite E. cbn [bind]. rewrite EM. cbn [bind].
    set (latex' := dupdate latex _). set (units' := dupdate units _). set (names := split _). set (quant := quantiles (fst dp)).
    set (S := setorder (map butlast (map d_label (snd dp)))) in *.
    destruct (SO (map butlast (map d_label (snd dp)))) as [SN SI]. fold S in SN, SI.
    assert (forall p, In p S <-> In p DERIVED /\ exists i, (1 <= i <= n)%nat /\ usable chains nulls (key p i) = true) as SD.
    { intro p. rewrite SI, PL. rewrite in_map_iff. split.
      - intros (k & <- & Hk). apply filter_In in Hk as [Hk U]. rewrite <- pairs_numbered in Hk. apply in_map_iff in Hk as ([q i] & <- & Hk). apply in_pairs in Hk as [Hq Hi]. cbn [fst snd] in *.
        rewrite key_butlast by lia. eauto.
      - intros (Hp & i & Hi & U). exists (key p i). split; [apply key_butlast; lia|]. apply filter_In. split; [|exact U]. rewrite <- pairs_numbered. apply in_map_iff. exists (p, i). split; [reflexivity|]. now apply in_pairs. }
    assert (names = S) as NS by (apply split_concat; intros p Hp; apply derived_one_word; now apply SD in Hp).
    assert (forall k, dmem quant k = dmem (fst dp) k) as SK by (intro; apply quantiles_dmem).
    destruct (rows_keys (list R) (R * R * R) T R (fst dp) quant mp latex' units' suffixes geterr of_quantiles show SK FM (pairs S n) []) as (rows & ER & KR).
    unfold table_rows. rewrite NS. fold (pairs S n). rewrite ER. cbn [bind]. exists (fst dp), rows, j. split; [reflexivity|]. split; [|split; [now apply idxmax_spec|]].
    - (* the keys *)
      rewrite KR. cbn [map app].
      assert (forall k, In k (numbered DERIVED n) -> dmem quant k && listed R mp latex' k = usable chains nulls k) as HK.
      { intros k Hk. rewrite SK, PM. unfold listed. destruct (usable chains nulls k) eqn:U.
        - unfold usable in U. apply andb_true_iff in U as [U1 U2]. rewrite U1. cbn [andb]. assert (In k (map d_label (snd dp))) as HL by (rewrite PL; apply filter_In; split; [exact Hk|]; unfold usable; now rewrite U1, U2).
          apply andb_true_iff. split.
          + unfold dmem. rewrite GM. replace (existsb (String.eqb k) _) with true by (symmetry; now apply null_in). destruct (dget_some_key _ _ (LK k HL)) as [v ->]. reflexivity.
          + unfold dmem, latex'. destruct (dget_some_key (map (fun l => (d_label l, match d_tex l with Some t => t | None => "None" end)) (snd dp)) k) as [v Hv].
            { unfold dkeys. rewrite map_map. exact HL. }
            erewrite dget_dupdate_in; [reflexivity| |exact Hv]. unfold wf_dict, dkeys. rewrite map_map. exact NDL.
        - unfold usable in U. destruct (dmem chains k) eqn:M; [|reflexivity]. cbn [andb] in *. apply andb_false_iff. right. unfold dmem, latex'. rewrite dget_dupdate_notin.
          + destruct (dget latex k) eqn:G; [|reflexivity]. apply dget_key in G. destruct (NL k Hk G).
          + unfold dkeys. rewrite map_map. cbn [fst]. change (map (fun x => d_label x) (snd dp)) with (map d_label (snd dp)). rewrite PL. intro H. apply filter_In in H as [_ H]. unfold usable in H. rewrite M in H. cbn [andb] in H. congruence. }
      assert (forall L, (forall p i, In (p, i) L -> In p DERIVED /\ (1 <= i <= n)%nat) ->
        filter (fun k => dmem quant k && listed R mp latex' k) (map (fun pn => shown_key _ quant (key (fst pn) (snd pn))) L) = filter (usable chains nulls) (map (fun pn => key (fst pn) (snd pn)) L)) as HF.
      { induction L as [|[p i] L IH]; intro HL; [reflexivity|]. cbn [map filter fst snd]. rewrite IH by (intros; apply HL; now right). destruct (HL p i (or_introl eq_refl)) as [Hp Hi].
        assert (In (key p i) (numbered DERIVED n)) as HN by (rewrite <- pairs_numbered; apply in_map_iff; exists (p, i); split; [reflexivity|now apply in_pairs]).
        unfold shown_key. destruct (dmem quant (key p i)) eqn:M.
        - rewrite (HK _ HN). reflexivity.
        - rewrite key_butlast by lia. rewrite SK, PM in M. replace (usable chains nulls (key p i)) with false by (unfold usable; now rewrite M). rewrite SK, PM. destruct (dmem chains p) eqn:M'; [|reflexivity].
          apply dmem_dget in M' as [v M']. apply dget_key in M'. destruct (NC p Hp) as [X _]. contradiction. }
      rewrite HF by (intros p i H; apply in_pairs in H as [H H']; split; [now apply SD in H|lia]). rewrite pairs_numbered.
      apply NoDup_Permutation; [apply NoDup_filter, keys_nodup; [exact SN|intros p H; now apply SD in H]|apply NoDup_filter, keys_nodup; [repeat constructor; cbn; intuition discriminate|auto]|].
      intro k. rewrite !filter_In, <- !pairs_numbered, !in_map_iff. split.
      + intros (([p i] & <- & H) & U). split; [|exact U]. exists (p, i). split; [reflexivity|]. apply in_pairs in H as [H Hi]. apply in_pairs. split; [now apply SD in H|exact Hi].
      + intros (([p i] & <- & H) & U). split; [|exact U]. exists (p, i). split; [reflexivity|]. apply in_pairs in H as [H Hi]. apply in_pairs. split; [|exact Hi]. apply SD. split; [exact H|]. exists i. auto.
    - (* the rows *)
      intros r Hr. destruct (rows_own _ _ _ _ (fst dp) quant mp latex' units' suffixes geterr of_quantiles show S n rows r ER Hr) as (p & i & Hp & Hi & OW & W).
      apply SD in Hp as [Hp _]. destruct OW as (_ & WU & WT & t & m & DM & SH & ST).
      assert (w_key r = key p i /\ In (key p i) (dkeys quant)) as [WK IQ].
      { destruct W as [[? ?]|[NI [c W]]]; [auto|]. exfalso. assert (w_key r = p) as WP by (rewrite <- (butlast_snoc (w_key r) c), <- W; apply key_butlast; lia).
        rewrite WP in ST. assert (dget (fst dp) p = None) as GN.
        { pose proof (PM p) as X. unfold dmem in X. destruct (dget chains p) eqn:G; [apply dget_key in G; destruct (NC p Hp); contradiction|]. destruct (dget (fst dp) p); [discriminate|reflexivity]. }
        destruct ST as [(_ & c' & X & _)|(_ & q & X & _)]; [congruence|]. unfold quant in X. rewrite quantiles_get, GN in X. discriminate. }
      rewrite WK in *. assert (In (key p i) (numbered DERIVED n)) as HN by (rewrite <- pairs_numbered; apply in_map_iff; exists (p, i); split; [reflexivity|now apply in_pairs]).
      assert (In (key p i) (map d_label (snd dp))) as HL.
      { destruct (in_dec string_dec (key p i) (map d_label (snd dp))) as [|NI]; [assumption|]. exfalso. unfold latex' in WT. rewrite dget_dupdate_notin in WT.
        - apply dget_key in WT. exact (NL _ HN WT).
        - unfold dkeys. rewrite map_map. exact NI. }
      pose proof HL as HU. rewrite PL in HU. apply filter_In in HU as [_ HU]. apply usable_in in HU as [HC HX]. destruct (dget_some_key _ _ HC) as [col Hcol].
      destruct (plot_entry _ _ _ _ _ E p i col Hp Hi Hcol HX) as (l & u & col' & DL & G' & SA & IE).
      exists p, i, col, col', l.
      assert (get_text units' p = "" /\ dget units' (key p i) = Some u /\ dget latex' (key p i) = Some (dtex p l)) as (U1 & U2 & U3).
      { split; [|split].
        - unfold get_text, units'. rewrite dget_dupdate_notin.
          + destruct (dget units p) eqn:G; [apply dget_key in G; destruct (NC p Hp); contradiction|reflexivity].
          + unfold dkeys. rewrite map_map. cbn [fst]. change (map (fun x => d_label x) (snd dp)) with (map d_label (snd dp)). rewrite PL. intro H. apply filter_In in H as [_ H]. apply usable_in in H as [H _]. destruct (NC p Hp); contradiction.
        - unfold units'. apply dget_dupdate_in; [unfold wf_dict, dkeys; rewrite map_map; exact NDL|]. apply in_dget; [unfold wf_dict, dkeys; rewrite map_map; exact NDL|]. apply in_map_iff. exists (mkDlabel (key p i) (Some (dtex p l)) u). auto.
        - unfold latex'. apply dget_dupdate_in; [unfold wf_dict, dkeys; rewrite map_map; exact NDL|]. apply in_dget; [unfold wf_dict, dkeys; rewrite map_map; exact NDL|]. apply in_map_iff. exists (mkDlabel (key p i) (Some (dtex p l)) u). auto. }
      assert (unit_of units' suffixes p (key p i) = u) as UU.
      { unfold unit_of. rewrite U1. unfold dmem, get_text. rewrite U2. cbn [String.eqb negb andb]. reflexivity. }
      rewrite UU in WU, ST. rewrite WU. assert (w_tex r = dtex p l) as WT' by congruence. rewrite GM in DM. replace (existsb (String.eqb (key p i)) _) with true in DM by (symmetry; now apply null_in). rewrite G' in DM. cbn [option_map] in DM. injection DM as <-.
      assert (u <> "radians") as NR by (unfold shown_as, EARTH, JUP in SA; intro X; rewrite X in SA; clear - SA; intuition discriminate).
      destruct ST as [[? _]|(_ & q & Q & ->)]; [contradiction|]. unfold quant in Q. rewrite quantiles_get, G' in Q. cbn [option_map] in Q. injection Q as <-.
      unfold quant in SH. rewrite quantiles_get, G' in SH. cbn [option_map] in SH.
      repeat (split; [auto; fail|]). exact SH.
  Qed.
End Table.

(** ** where it goes wrong *)
(** the same samples used twice: Jupiter masses, called Earth masses *)
Theorem twice n letters nulls chains dp i col : derived_plot n letters nulls chains = Ok dp -> (1 <= i <= n)%nat ->
  dget chains (key "mpsini" i) = Some col -> ~ In (key "mpsini" i) nulls -> 100 < median col <= 31746 ->
  exists dp2 e, derived_plot n letters nulls (fst dp) = Ok dp2 /\ In e (snd dp2) /\ d_label e = key "mpsini" i /\ d_unit e = EARTH /\
    dget (fst dp2) (key "mpsini" i) = Some (map (fun x => x * (315 / 100000)) col).
Proof.
  intros E Hi G NN [M1 M2]. destruct (plot_entry _ _ _ _ _ E "mpsini" i col (or_introl eq_refl) Hi G NN) as (l & u & col' & _ & G' & SA & _).
  assert (col' = map (fun x => x * (315 / 100000)) col) as ->.
  { destruct SA as [(_ & H & _)|[(_ & _ & _ & H)|[(H & _)|(H & _)]]]; [lra|exact H|discriminate|discriminate]. }
  destruct (derived_plot_total n letters nulls (fst dp)) as [dp2 E2].
  { intros j Hj. destruct (derived_plot_inv _ _ _ _ _ E) as (lt & LT & _). eauto. }
  destruct (plot_entry _ _ _ _ _ E2 "mpsini" i _ (or_introl eq_refl) Hi G' NN) as (l2 & u2 & col2 & _ & G2 & SA2 & IE).
  exists dp2, (mkDlabel (key "mpsini" i) (Some (dtex "mpsini" l2)) u2). split; [exact E2|]. split; [exact IE|]. split; [reflexivity|]. cbn [d_unit].
  destruct SA2 as [(_ & H & -> & ->)|[(_ & H & _)|[(H & _)|(H & _)]]]; [auto| |discriminate|discriminate].
  rewrite median_scale in H by lra. lra.
Qed.
Theorem eleven n nulls chains : (10 < n)%nat -> derived_plot n None nulls chains = Err (KeyError "11").
Proof.
  intro H. unfold derived_plot. replace n with (10 + S (n - 11))%nat by lia. rewrite seq_app. change (seq (1 + 10) (S (n - 11))) with (11%nat :: seq 12 (n - 11)).
  assert (forall a b (g : dplot -> string -> nat -> dplot) st, (forall i, In i a -> exists l, letter_at None i = Ok l) ->
    for_each (a ++ 11%nat :: b) (fun st i => do l <- letter_at None i; Ok (g st l i)) st = Err (KeyError "11")) as FA.
  { induction a as [|x a IH]; intros b g st Ha; cbn [for_each app]; [reflexivity|]. destruct (Ha x (or_introl eq_refl)) as [l ->]. cbn [bind]. apply IH. intros; apply Ha; now right. }
  apply (FA _ _ (fun st l i => fold_left (dp_key nulls l i) ["mpsini"; "rhop"; "a"] st)). intros i Hi. apply in_seq in Hi. do 11 (destruct i as [|i]; [try lia; eexists; reflexivity|]). lia.
Qed.

Definition xd_chains : dict (list R) := (map (fun i => (key "a" i, [INR i])) (seq 1 10) ++ [("lnprobability", [0])])%list.
Definition xd_tab : res (dict (list R) * list trow) :=
  tab_derived unit (nodup string_dec) (fun _ => Ok tt) (fun _ => tt) (fun _ _ _ => Ok "") 10 None [] xd_chains [] [] [] [].
Lemma nodup_order : set_order (nodup string_dec).
Proof. intro l. split; [apply NoDup_nodup|]. intro x. apply nodup_In. Qed.
Lemma xd_rows : exists rows, xd_tab = Ok (xd_chains, rows) /\ count_occ string_dec (map w_key rows) "a1" = 10%nat.
Proof.
  assert (match xd_tab with Ok (c, rows) => map fst c = dkeys xd_chains /\ map snd c = map snd xd_chains /\ map w_key rows = flat_map (fun i => if Nat.eqb i 10 then [key "a" i] else [key "a" i; "a1"]) (seq 1 10) | Err _ => False end) as H.
  { unfold xd_chains, xd_tab, xd_chains. cbn [map seq app]. generalize 0 as z. intro z. generalize (INR 1) as x1, (INR 2) as x2, (INR 3) as x3, (INR 4) as x4, (INR 5) as x5, (INR 6) as x6, (INR 7) as x7, (INR 8) as x8, (INR 9) as x9, (INR 10) as x10. intros.
    lazy. repeat split; reflexivity. }
  destruct xd_tab as [[c rows]|]; [|destruct H]. destruct H as (H1 & H2 & H3). exists rows. split.
  - do 2 f_equal. clear - H1 H2. revert H1 H2. unfold dkeys. generalize xd_chains. induction c as [|[k v] c IH]; intros [|[k' v'] d]; cbn; try discriminate; [reflexivity|]. intros [= -> A] [= -> B]. f_equal. auto.
  - rewrite H3. vm_compute. reflexivity.
Qed.

(** ** an example: two planets, one heavy *)
Definition xe_chains : dict (list R) := [("lnprobability", [(-2); (-1); (-3)]); ("mpsini1", [10; 20; 30]); ("mpsini2", [900; 1000; 1100]); ("a1", [1; 1; 1]); ("rhop1", [0])].
Lemma xe_hyps : set_order (nodup string_dec) /\ formats (list R) (R * R * R) unit R (fun _ => Ok tt) (fun _ _ _ => Ok "") /\
  (forall i, (1 <= i <= 2)%nat -> exists l, dletter None i l) /\ dget xe_chains "lnprobability" = Some [(-2); (-1); (-3)] /\
  (forall p, In p DERIVED -> ~ In p (dkeys xe_chains) /\ ~ In p (dkeys report_units)) /\
  filter (usable xe_chains ["rhop1"]) (numbered DERIVED 2) = ["mpsini1"; "a1"; "mpsini2"] /\ median [900; 1000; 1100] = 1000.
Proof.
  split; [exact nodup_order|]. split; [split; intros; eauto|]. split.
  { intros i Hi. destruct (Nat.eq_dec i 1) as [->|]; [exists "b", [], (tl default_letters); split; [reflexivity|intros []]|]. assert (i = 2)%nat as -> by lia.
    exists "c", [(1%nat, "b")], (tl (tl default_letters)). split; [reflexivity|]. cbn. intros [H|[]]. discriminate. }
  split; [reflexivity|]. split.
  { intros p [<-|[<-|[<-|[]]]]; split; cbn; intuition discriminate. }
  split; [reflexivity|].
  unfold median. cbn [length Nat.even Nat.div Nat.divmod fst]. cbn [sort insert]. rewrite (proj2 (PyFacts.rleb_true 1000 1100)) by lra. cbn [insert]. rewrite (proj2 (PyFacts.rleb_true 900 1000)) by lra. cbn. lra.
Qed.
