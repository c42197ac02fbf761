(** C09: the conversions on vectors. *)
From Coq Require Import Reals String Arith Bool Lia List.
From Verif Require Import Py PyFacts Params ParamsProofs ParamsSpec VectorProofs Kepler Basis BasisNum BasisProofs BasisConv.
Import ListNotations.
Open Scope string_scope.
#[local] Arguments unkey : simpl never.
#[local] Arguments key : simpl never.

(** value column of a row *)
Definition rowval (v : list row) (i : nat) : option R :=
  match nth_error v i with Some r => r_val r | None => None end.

Lemma vget_rowval v i x : rowval v i = Some x -> vget v i = Ok x.
Proof.
  unfold rowval, vget. destruct (nth_error v i) as [r|]; [|discriminate]. now intros ->.
Qed.

Lemma length_vset v i x : length (vset v i x) = length v.
Proof. unfold vset. destruct (nth_error v i); auto. apply length_list_upd. Qed.

Lemma rowval_vset v i x k : (i < length v)%nat ->
  rowval (vset v i x) k = if Nat.eqb k i then Some x else rowval v k.
Proof.
  intro H. unfold rowval, vset. destruct (nth_error v i) as [r|] eqn:E; [|apply nth_error_None in E; lia].
  destruct (Nat.eqb_spec k i) as [->|N].
  - now rewrite nth_list_upd_same.
  - rewrite nth_list_upd_other; auto.
Qed.

Lemma setvary_spec b v is : length (setvary b v is) = length v /\
  forall k, rowval (setvary b v is) k = rowval v k.
Proof.
  revert v. induction is as [|i r IH]; intro v; cbn; auto.
  destruct (nth_error v i) as [rw|] eqn:E; [|apply IH].
  destruct (IH (list_upd v i (mkRow (r_val rw) b None (r_lin rw)))) as [A B]. fold (setvary b) in *.
  unfold setvary in *. split.
  - rewrite A. apply length_list_upd.
  - intro k. rewrite B. unfold rowval. destruct (Nat.eq_dec k i) as [->|N].
    + rewrite nth_list_upd_same by (apply nth_error_Some; congruence). now rewrite E.
    + now rewrite nth_list_upd_other by auto.
Qed.

Lemma setvary_out b v is k : ~ In k is -> nth_error (setvary b v is) k = nth_error v k.
Proof.
  unfold setvary. revert v. induction is as [|i r IH]; intros v H; cbn; auto.
  cbn in H. rewrite IH by tauto. destruct (nth_error v i); auto. apply nth_list_upd_other. intuition.
Qed.

Lemma length_vassign v l : length (vassign v l) = length v.
Proof. unfold vassign. revert v. induction l as [|a r IH]; intro v; cbn; auto. now rewrite IH, length_vset. Qed.

Lemma vassign_out v l k : ~ In k (map fst l) -> nth_error (vassign v l) k = nth_error v k.
Proof.
  unfold vassign. revert v. induction l as [|[i x] r IH]; intros v H; cbn; auto. cbn in H.
  rewrite IH by tauto. unfold vset. destruct (nth_error v i); auto. apply nth_list_upd_other. intuition.
Qed.

Lemma rowval_vassign v l k : (forall i x, In (i, x) l -> (i < length v)%nat) ->
  rowval (vassign v l) k =
  match find (fun ix => Nat.eqb k (fst ix)) (rev l) with Some ix => Some (snd ix) | None => rowval v k end.
Proof.
  induction l as [|[i x] r IH] using rev_ind; intro H; auto.
  unfold vassign. rewrite fold_left_app, rev_app_distr. cbn [fold_left fst snd rev app find].
  fold (vassign v r). rewrite rowval_vset.
  - destruct (Nat.eqb k i); auto. apply IH. intros; eapply H, in_or_app; eauto.
  - rewrite length_vassign. eapply H, in_or_app. right. now left.
Qed.

Definition el_at (el : elements) (j : nat) : R :=
  nth j [el_per el; el_tp el; el_e el; el_w el; el_k el] 0%R.

(** row reads of planet at rows base.. *)
Definition five (v : list row) (base : nat) (x : nat -> R) : Prop :=
  forall j, (j < 5)%nat -> rowval v (j + base) = Some (x j).

Lemma five_vget v base x : five v base x ->
  vget v base = Ok (x 0%nat) /\ vget v (1 + base) = Ok (x 1%nat) /\ vget v (2 + base) = Ok (x 2%nat) /\
  vget v (3 + base) = Ok (x 3%nat) /\ vget v (4 + base) = Ok (x 4%nat).
Proof.
  intro H. repeat split; apply vget_rowval.
  - apply (H 0%nat). lia.
  - apply (H 1%nat). lia.
  - apply (H 2%nat). lia.
  - apply (H 3%nat). lia.
  - apply (H 4%nat). lia.
Qed.

Lemma five_length v base x : five v base x -> (4 + base < length v)%nat.
Proof.
  intro H. specialize (H 4%nat ltac:(lia)). unfold rowval in H.
  destruct (nth_error v (4 + base)) eqn:E; [|discriminate]. apply nth_error_Some. congruence.
Qed.

Lemma eqb_add j k b : Nat.eqb (j + b) (k + b) = Nat.eqb j k.
Proof. destruct (Nat.eqb_spec j k), (Nat.eqb_spec (j + b) (k + b)); auto; lia. Qed.

Lemma eqb_add0 j b : Nat.eqb (j + b) b = Nat.eqb j 0.
Proof. destruct (Nat.eqb_spec j 0), (Nat.eqb_spec (j + b) b); auto; lia. Qed.

Definition row_getter (x : nat -> R) : string -> res R := fun p => Ok (x (column p)).

Definition in_block (base : nat) (l : list (nat * R)) (vs : list nat) : Prop :=
  (forall i, In i (map fst l) -> (base <= i < 5 + base)%nat) /\
  (forall i, In i vs -> (base <= i < 5 + base)%nat).

Lemma v_to_synth_planet b names v base x el : In (b, names) FIT_BASES -> b <> "per tp e w k" ->
  five v base x -> synth_of b (row_getter x) = Ok (el_tuple el) ->
  exists l vs, v_to_synth_of b v base = Ok (l, vs) /\ in_block base l vs /\
    forall v2, (4 + base < length v2)%nat -> five v2 base x -> five (vassign v2 l) base (el_at el).
Proof.
  intros HF Hb H5 HS. destruct (five_vget _ _ _ H5) as (E0 & E1 & E2 & E3 & E4).
  unfold v_to_synth_of. rewrite E0, E1, E2, E3, E4. cbn [bind].
  fit_cases HF; [congruence|..]; unfold synth_of in HS; revert HS; eval_strings;
    unfold row_getter; cbn [bind]; intro HS; unfold el_tuple in HS; inversion HS as [[H0 H1 H2 H3 H4]];
    change (column "per") with 0%nat in *; change (column "logper") with 0%nat in *;
    change (column "tc") with 1%nat in *; change (column "tp") with 1%nat in *;
    change (column "e") with 2%nat in *; change (column "se") with 2%nat in *;
    change (column "secosw") with 2%nat in *; change (column "ecosw") with 2%nat in *;
    change (column "w") with 3%nat in *; change (column "sesinw") with 3%nat in *;
    change (column "esinw") with 3%nat in *; change (column "k") with 4%nat in *; change (column "logk") with 4%nat in *;
    (eexists; eexists; split; [reflexivity|]; split;
     [split; intros i Hi; cbn in Hi; intuition lia|];
     intros v2 Hl H5' j Hj;
     rewrite rowval_vassign by (intros i y Hi; cbn [In] in Hi; repeat (destruct Hi as [Hi|Hi]; [inversion Hi; lia|]); easy);
     cbn [rev app find fst snd];
     do 5 (destruct j as [|j]; [rewrite ?eqb_add, ?eqb_add0; cbn [Nat.eqb fst snd];
        first [rewrite (H5' _ Hj); unfold el_at; cbn [nth pow]; congruence
              | unfold el_at; cbn [nth pow]; congruence]|]); lia).
Qed.

Lemma v_from_synth_planet b names v base el : In (b, names) FIT_BASES ->
  five v base (el_at el) ->
  exists l vs, v_from_synth_of b v base = Ok (l, vs) /\ in_block base l vs /\
    forall v2, (4 + base < length v2)%nat -> five v2 base (el_at el) ->
      five (vassign v2 l) base (fun j => meaning el (nth j names "")).
Proof.
  intros HF H5. destruct (five_vget _ _ _ H5) as (E0 & E1 & E2 & E3 & E4).
  unfold v_from_synth_of. rewrite E0, E1, E2, E3, E4. cbn [bind]. destruct el as [per tp e w k].
  unfold el_at; cbn [nth el_per el_tp el_e el_w el_k].
  fit_cases HF; eval_strings;
    (eexists; eexists; split; [reflexivity|]; split;
     [split; intros i Hi; cbn in Hi; intuition lia|];
     intros v2 Hl H5' j Hj;
     rewrite rowval_vassign by (intros i y Hi; cbn [In] in Hi; repeat (destruct Hi as [Hi|Hi]; [inversion Hi; lia|]); easy);
     cbn [rev app find fst snd];
     do 5 (destruct j as [|j]; [rewrite ?eqb_add, ?eqb_add0; cbn [Nat.eqb fst snd];
        first [rewrite (H5' _ Hj); unfold el_at; cbn [nth]; reflexivity
              | cbn [nth]; reflexivity]|]); lia).
Qed.

Lemma for_each_app {A S} (l1 l2 : list A) (f : S -> A -> res S) s :
  for_each (l1 ++ l2) f s = do s' <- for_each l1 f s; for_each l2 f s'.
Proof. revert s. induction l1; cbn; auto. intro s. destruct (f s a); cbn; auto. Qed.

Lemma five_ext v v' base x : (forall j, (j < 5)%nat -> nth_error v' (j + base) = nth_error v (j + base)) ->
  five v base x -> five v' base x.
Proof. intros H H5 j Hj. unfold rowval. rewrite H by auto. now apply H5. Qed.

Lemma v_planets_loop bv num v (g : nat -> res (list (nat * R) * list nat)) (x y : nat -> nat -> R) :
  (forall n, (n < num)%nat -> five v (5 * n) (x n)) ->
  (forall n, (n < num)%nat -> exists l vs, g n = Ok (l, vs) /\ in_block (5 * n) l vs /\
     forall v2, (4 + 5 * n < length v2)%nat -> five v2 (5 * n) (x n) -> five (vassign v2 l) (5 * n) (y n)) ->
  exists v', for_each (seq 0 num) (fun v2 n => do (l, vs) <- g n; Ok (setvary bv (vassign v2 l) vs)) v = Ok v' /\
    length v' = length v /\ (forall n, (n < num)%nat -> five v' (5 * n) (y n)) /\
    forall i, (5 * num <= i)%nat -> nth_error v' i = nth_error v i.
Proof.
  intros H5 HG.
  assert (forall m, (m <= num)%nat ->
    exists v', for_each (seq 0 m) (fun v2 n => do (l, vs) <- g n; Ok (setvary bv (vassign v2 l) vs)) v = Ok v' /\
    length v' = length v /\ (forall n, (n < m)%nat -> five v' (5 * n) (y n)) /\
    forall i, (5 * m <= i)%nat -> nth_error v' i = nth_error v i) as Q.
  { induction m as [|m IH]; intro Hm.
    - exists v. repeat split; auto. intros; lia.
    - destruct (IH ltac:(lia)) as (v1 & E1 & L1 & F1 & O1).
      destruct (HG m ltac:(lia)) as (l & vs & Eg & [B1 B2] & Fg).
      rewrite seq_S, for_each_app, E1. cbn [bind for_each Nat.add]. rewrite Eg. cbn [bind].
      destruct (setvary_spec bv (vassign v1 l) vs) as [SL SV].
      eexists. split; [reflexivity|]. split; [rewrite SL, length_vassign; auto|].
      assert (five v1 (5 * m) (x m)) as F5.
      { apply five_ext with (v := v); [|apply H5; lia]. intros j Hj. apply O1. lia. }
      split.
      + intros n Hn. destruct (Nat.eq_dec n m) as [->|N].
        * intros j Hj. rewrite SV. apply Fg; auto. apply five_length in F5. lia.
        * apply five_ext with (v := v1); [|apply F1; lia].
          intros j Hj. rewrite setvary_out, vassign_out; auto.
          -- intro Hin. apply B1 in Hin. lia.
          -- intro Hin. apply B2 in Hin. lia.
      + intros i Hi. rewrite setvary_out, vassign_out; [apply O1; lia| |].
        -- intro Hin. apply B1 in Hin. lia.
        -- intro Hin. apply B2 in Hin. lia. }
  apply Q. lia.
Qed.

(** v_to_synth on a vector whose planet rows hold [x n] *)
Lemma v_to_synth_main b names self v noVary kname (x : nat -> nat -> R) (E : nat -> elements) :
  In (b, names) FIT_BASES -> (match kname with Some s => s | None => b_name self end) = b ->
  (forall n, (n < b_num self)%nat -> five v (5 * n) (x n)) ->
  (forall n, (n < b_num self)%nat -> synth_of b (row_getter (x n)) = Ok (el_tuple (E n))) ->
  exists v', v_to_synth self v noVary kname = Ok v' /\ length v' = length v /\
    (forall n, (n < b_num self)%nat -> five v' (5 * n) (el_at (E n))) /\
    forall i, (5 * b_num self <= i)%nat -> nth_error v' i = nth_error v i.
Proof.
  intros HF Hb H5 HS. unfold v_to_synth. rewrite Hb.
  destruct (String.eqb_spec b "per tp e w k") as [->|Hne].
  - exists v. repeat split; auto. intros n Hn. specialize (HS n Hn).
    unfold synth_of in HS. revert HS. eval_strings. unfold row_getter. cbn [bind]. intro HS.
    unfold el_tuple in HS. inversion HS.
    intros j Hj. rewrite (H5 n Hn j Hj). f_equal.
    do 5 (destruct j as [|j]; [unfold el_at; cbn [nth]; assumption|]). lia.
  - apply v_planets_loop with (x := x); auto.
    intros n Hn. apply v_to_synth_planet with (names := names); auto.
Qed.

Lemma v_from_synth_main b names self v (E : nat -> elements) :
  In (b, names) FIT_BASES ->
  (forall n, (n < b_num self)%nat -> five v (5 * n) (el_at (E n))) ->
  exists v', v_from_synth self v b = Ok v' /\ length v' = length v /\
    (forall n, (n < b_num self)%nat -> five v' (5 * n) (fun j => meaning (E n) (nth j names ""))) /\
    forall i, (5 * b_num self <= i)%nat -> nth_error v' i = nth_error v i.
Proof.
  intros HF H5. apply v_planets_loop with (x := fun n => el_at (E n)); auto.
  intros n Hn. apply v_from_synth_planet; auto.
Qed.

(** ** The vector of a parameter set *)

(** entries of planet n in column j, in dictionary order *)
Definition colf (j : nat) (d : dict param) : dict param := filter (fun pq => Nat.eqb (column (fst pq)) j) d.

Lemma find_rev_filter {A} (f : A -> bool) l :
  find f (rev l) = match rev (filter f l) with [] => None | x :: _ => Some x end.
Proof.
  induction l as [|a r IH] using rev_ind; auto.
  rewrite rev_app_distr, filter_app. cbn [rev app find filter]. destruct (f a).
  - now rewrite rev_app_distr.
  - now rewrite app_nil_r.
Qed.

Lemma hits_colf h d num n j keys : locs_ok h d -> NoDup keys -> (1 <= n <= num)%nat -> (j < 5)%nat ->
  filter (hits (dget (init_index_dict num keys)) (j + 5 * (n - 1))) (dkeys d) =
  map (fun pq => key (fst pq) n) (colf j (projv h n d)).
Proof.
  intros HL ND Hn Hj. unfold dkeys. induction d as [|[k l] r IH]; auto.
  apply locs_cons in HL. destruct HL as [Hl HL]. cbn [snd] in Hl.
  destruct (nth_error h l) as [q|] eqn:Eq; [|apply nth_error_None in Eq; lia].
  cbn [map fst filter projv flat_map]. unfold planet_entry at 1. cbn [fst snd]. rewrite Eq.
  rewrite IH by auto. unfold hits at 1.
  destruct (unkey n k) as [p|] eqn:Eu.
  - apply unkey_some in Eu. destruct Eu as [-> Hp]. rewrite index_planet by auto.
    unfold colf. cbn [app filter fst].
    replace (Nat.eqb (5 * (n - 1) + column p) (j + 5 * (n - 1))) with (Nat.eqb (column p) j).
    2:{ rewrite (Nat.add_comm j). destruct (Nat.eqb_spec (column p) j), (Nat.eqb_spec (5 * (n - 1) + column p) (5 * (n - 1) + j)); auto; lia. }
    destruct (Nat.eqb (column p) j); reflexivity.
  - cbn [app].
    destruct (dget (init_index_dict num keys) k) as [i|] eqn:Ei; auto.
    destruct (Nat.eqb_spec i (j + 5 * (n - 1))); auto. exfalso.
    apply index_inv in Ei; auto. rewrite unkey_none in Eu.
    remember i as i' eqn:Hii in Ei. destruct Ei as [m p Hm Hp| | |k He Hin]; try lia.
    pose proof (column_lt p). assert (m = n) by lia. subst. now apply (Eu p).
Qed.

Lemma last_snoc {A} (l : list A) a : match rev (l ++ [a]) with [] => None | x :: _ => Some x end = Some a.
Proof. now rewrite rev_app_distr. Qed.

(** the vector exists when every parameter has a boolean vary flag, and row
    5(n-1)+j holds the last entry of column j *)
Lemma vector_rows h ps b names :
  params_ok h ps b names ->
  (forall k, In k (dkeys (ps_items ps)) -> storable h (ps_items ps) k) ->
  exists vec, vector_init h ps = Ok vec /\
    forall n j l p q, (1 <= n <= ps_num ps)%nat -> (j < 5)%nat -> In p PNAMES ->
      colf j (projv h n (ps_items ps)) = (l ++ [(p, q)])%list ->
      nth_error (v_vector vec) (j + 5 * (n - 1)) = Some (row_at h (ps_items ps) (key p n)).
Proof.
  intros [HF HN Hnum HL ND HH] HST.
  set (d := ps_items ps) in *. set (num := ps_num ps) in *.
  set (idx := init_index_dict num (dkeys d)).
  pose proof (rows_enough_w num b names d HF ND HH) as HR.
  destruct (names_exist num b names d HF ND HH) as [nm Enm].
  set (v0 := repeat zero_row (length (dkeys d) + n_missing d)).
  assert (length v0 = (length (dkeys d) + n_missing d)%nat) as L0 by apply repeat_length.
  assert (dict_to_vector h d idx = Ok (fold_left (fill_step (dget idx) (row_at h d)) (dkeys d) v0)) as ED.
  { apply dv_fill. intros k i Hk Ei. split; auto. apply index_range_w in Ei; auto. fold v0. lia. }
  eexists. split.
  - unfold vector_init. fold d num. fold idx. rewrite ED. cbn [bind]. fold idx in Enm. rewrite Enm. reflexivity.
  - cbn [v_vector]. intros n j l p q Hn Hj Hp HC.
    rewrite fill_nth by lia. rewrite find_rev_filter.
    unfold idx. rewrite (hits_colf h) by auto. rewrite HC, map_app. cbn [map fst].
    rewrite rev_app_distr. reflexivity.
Qed.

Lemma vector_value_error h ps b names k :
  params_ok h ps b names ->
  In k (dkeys (ps_items ps)) -> (exists n p, (1 <= n <= ps_num ps)%nat /\ In p PNAMES /\ k = key p n) ->
  (exists q, get_param h (ps_items ps) k = Some q /\ p_vary q = VEmpty) ->
  vector_init h ps = Err ValueError.
Proof.
  intros [HF HN Hnum HL ND HH] Hk (n & p & Hn & Hp & ->) (q & Hq & Hv).
  set (d := ps_items ps) in *. set (num := ps_num ps) in *.
  pose proof (rows_enough_w num b names d HF ND HH) as HR.
  unfold vector_init. fold d num. unfold dict_to_vector. rewrite dv_value_error; auto.
  - intros k i Hk' Ei. split.
    + apply dget_some_key in Hk'. destruct Hk' as [l El]. unfold get_param. rewrite El.
      apply dget_in in El. apply HL in El. destruct (nth_error h l) eqn:E; eauto.
      apply nth_error_None in E. lia.
    + rewrite repeat_length. apply index_range_w in Ei; auto. lia.
  - exists (key p n), (5 * (n - 1) + column p)%nat, q. repeat split; auto. now apply index_planet.
Qed.

(** a strict source: each column of each planet holds exactly its parameter *)
Lemma colf_strict h ps b names n j p : params_ok h ps b names ->
  (forall n p, (1 <= n <= ps_num ps)%nat -> In p PNAMES -> In (key p n) (dkeys (ps_items ps)) -> In p names) ->
  (1 <= n <= ps_num ps)%nat -> nth_error names j = Some p ->
  exists q, get_param h (ps_items ps) (key p n) = Some q /\
    colf j (projv h n (ps_items ps)) = [(p, q)].
Proof.
  intros [HF HN Hnum HL ND HH] HO Hn Hj.
  assert (In p names) as Hp by (eapply nth_error_In; eauto).
  assert (In p PNAMES) as Hpp by (eapply fit_pnames; eauto).
  assert (column p = j) as Hc by (eapply fit_column; eauto).
  destruct (dget_some_key _ _ (HH n p Hn Hp)) as [l El].
  assert (exists q, get_param h (ps_items ps) (key p n) = Some q) as [q Hq].
  { unfold get_param. rewrite El. apply dget_in in El. apply HL in El.
    destruct (nth_error h l) eqn:E; eauto. apply nth_error_None in E. lia. }
  exists q. split; auto.
  pose proof (projv_nodup h n _ ND) as NDP.
  assert (forall p' q', In (p', q') (colf j (projv h n (ps_items ps))) -> p' = p) as A.
  { intros p' q' Hin. apply filter_In in Hin. destruct Hin as [Hin Hc']. cbn in Hc'. apply Nat.eqb_eq in Hc'.
    apply in_flat_map in Hin. destruct Hin as ([k' l'] & Hk' & Hin). unfold planet_entry in Hin. cbn [fst snd] in Hin.
    destruct (unkey n k') as [p''|] eqn:Eu; [|easy]. destruct (nth_error h l'); [|easy].
    destruct Hin as [Hin|[]]. inversion Hin; subst p''. apply unkey_some in Eu. destruct Eu as [-> Hpp'].
    assert (In p' names) as Hp'. { apply (HO n); auto. apply in_map_iff. now exists (key p' n, l'). }
    eapply fit_column_inj; eauto. congruence. }
  assert (In (p, q) (colf j (projv h n (ps_items ps)))) as B.
  { apply filter_In. split; [|cbn; now apply Nat.eqb_eq]. apply dget_in. now rewrite projv_get. }
  assert (NoDup (dkeys (colf j (projv h n (ps_items ps))))) as C.
  { clear -NDP. unfold colf, dkeys in *. induction (projv h n (ps_items ps)) as [|a r IH]; cbn; auto.
    cbn in NDP. inversion NDP; subst. destruct (Nat.eqb (column (fst a)) j); auto. cbn. constructor; auto.
    intro H. apply H1. apply in_map_iff in H. destruct H as (y & E & Hy). apply filter_In in Hy.
    apply in_map_iff. exists y. tauto. }
  destruct (colf j (projv h n (ps_items ps))) as [|[a qa] [|[c qc] r]].
  - easy.
  - destruct B as [B|[]]. now rewrite B.
  - exfalso. assert (a = p) by (eapply A; now left). assert (c = p) by (eapply A; right; now left). subst.
    cbn in C. inversion C. apply H1. now left.
Qed.
