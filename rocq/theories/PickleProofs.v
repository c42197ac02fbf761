(** C15: copies of Parameters objects; C16: velocities from elements. *)
From Coq Require Import Reals String Ascii Arith ZArith Bool Lia Lra List.
From Verif Require Import Py PyFacts Params ParamsProofs ParamsSpec VectorProofs BasisProofs.
Import ListNotations.
Open Scope string_scope.
#[local] Arguments unkey : simpl never.
#[local] Arguments key : simpl never.

(** the loop of reduce_copy *)
Definition copy_step (deep : bool) (h : heap) (hd : heap * dict nat) (kl : string * nat) : heap * dict nat :=
  if deep then
    match nth_error h (snd kl) with
    | Some p => set_new hd (fst kl) p
    | None => hd
    end
  else (fst hd, dset (snd hd) (fst kl) (snd kl)).

Lemma dkeys_dset {V} (d : dict V) k v : dkeys (dset d k v) = if dmem d k then dkeys d else (dkeys d ++ [k])%list.
Proof.
  unfold dmem. induction d as [|[k' v'] d IH]; cbn; auto.
  destruct (String.eqb_spec k k') as [->|N]; cbn; auto. unfold dkeys in *. rewrite IH. destruct (dget d k); reflexivity.
Qed.

Lemma in_dkeys_dset {V} (d : dict V) k v k' : In k' (dkeys (dset d k v)) <-> k' = k \/ In k' (dkeys d).
Proof.
  rewrite dkeys_dset. destruct (dmem d k) eqn:M.
  - apply dmem_in in M. split; auto. intros [->|H]; auto.
  - rewrite in_app_iff. cbn. intuition.
Qed.

Lemma filter_none {A} (f : A -> bool) l : (forall x, In x l -> f x = false) -> filter f l = [].
Proof. induction l as [|a l IH]; intro H; auto. cbn. rewrite H by (now left). apply IH. intros; apply H; now right. Qed.

Lemma copy_loop deep (h : heap) (items : dict nat) : forall hd : heap * dict nat,
  locs_ok h items -> NoDup (dkeys items) -> (exists t, fst hd = (h ++ t)%list) -> locs_ok (fst hd) (snd hd) ->
  let hd' := fold_left (copy_step deep h) items hd in
  (exists t, fst hd' = (fst hd ++ t)%list) /\ locs_ok (fst hd') (snd hd') /\
  (forall k, In k (dkeys (snd hd')) <-> In k (dkeys items) \/ In k (dkeys (snd hd))) /\
  (forall k, ~ In k (dkeys items) -> dget (snd hd') k = dget (snd hd) k) /\
  (forall k l, In (k, l) items -> get_param (fst hd') (snd hd') k = nth_error h l /\
     if deep then exists l', dget (snd hd') k = Some l' /\ (length (fst hd) <= l')%nat
     else dget (snd hd') k = Some l) /\
  (forall f, (forall k, In k (dkeys (snd hd)) -> f k = false) ->
     filter f (dkeys (snd hd')) = filter f (dkeys items)).
Proof.
  induction items as [|[k l] items IH]; intros hd HL ND [t HT] HD; cbn zeta.
  - cbn [fold_left]. split; [exists []; now rewrite app_nil_r|]. split; auto. split; [cbn; intuition|]. split; auto. split; [contradiction|].
    intros f Hf. cbn [dkeys map filter]. now apply filter_none.
  - cbn [fold_left]. apply locs_cons in HL as HL'. destruct HL' as [Hl HL']. cbn [snd] in Hl.
    inversion ND as [|? ? Nk ND']; subst.
    assert (exists q, nth_error h l = Some q) as [q Hq].
    { destruct (nth_error h l) eqn:Q; eauto. apply nth_error_None in Q. lia. }
    set (hd1 := copy_step deep h hd (k, l)).
    assert ((exists t1, fst hd1 = (fst hd ++ t1)%list) /\ locs_ok (fst hd1) (snd hd1) /\
            (exists l1, snd hd1 = dset (snd hd) k l1 /\ nth_error (fst hd1) l1 = Some q /\
               if deep then (length (fst hd) <= l1)%nat else l1 = l)) as ([t1 T1] & L1 & l1 & D1 & Q1 & F1).
    { unfold hd1, copy_step. cbn [fst snd]. rewrite Hq. destruct deep.
      - split; [exists [q]; reflexivity|]. split; [now apply locs_set_new|]. exists (length (fst hd)). cbn [set_new fst snd].
        repeat split; auto. rewrite nth_error_app2, Nat.sub_diag; auto.
      - cbn [fst snd]. split; [exists []; now rewrite app_nil_r|].
        assert (nth_error (fst hd) l = Some q) as Q by (rewrite HT, nth_error_app1; auto).
        split.
        + intros k' l' Hin. apply in_dset in Hin. destruct Hin as [Hin|Hin]; [|eapply HD; eauto].
          inversion Hin; subst k' l'. apply nth_error_Some. unfold heap in *. rewrite Q. discriminate.
        + exists l. auto. }
    destruct (IH hd1 HL' ND') as ([t2 T2] & L2 & K2 & O2 & G2 & P2); auto.
    { exists (t ++ t1)%list. rewrite T1, HT. now rewrite app_assoc. }
    fold hd1. set (hd' := fold_left (copy_step deep h) items hd1) in *.
    split; [exists (t1 ++ t2)%list; rewrite T2, T1; now rewrite app_assoc|]. split; auto.
    split; [|split; [|split]].
    + intro k'. rewrite K2, D1, in_dkeys_dset. cbn. intuition.
    + intros k' Hk'. rewrite O2, D1; [|cbn in Hk'; tauto]. apply dget_dset_other. intros ->. apply Hk'. now left.
    + intros k' l' [Heq|Hin].
      * inversion Heq; subst k' l'; clear Heq.
        assert (dget (snd hd') k = Some l1) as Dk by (rewrite O2, D1 by auto; apply dget_dset_same).
        split; [|destruct deep; [eauto|now subst]].
        unfold get_param. rewrite Dk, Hq, T2, nth_error_app1; auto. apply nth_error_Some. congruence.
      * destruct (G2 k' l' Hin) as [A B]. split; auto. destruct deep; auto. destruct B as (x & B1 & B2).
        exists x. split; auto. rewrite T1, app_length in B2. lia.
    + intros f Hf. cbn [dkeys map fst]. cbn [filter]. destruct (f k) eqn:Fk.
      * assert (~ In k (dkeys (snd hd))) as Nin by (intro Hc; apply Hf in Hc; congruence).
        clear IH P2.
        (* the keys after the loop start with those of hd1 *)
        assert (forall its (e : heap * dict nat), locs_ok h its -> NoDup (dkeys its) ->
          (forall k, In k (dkeys its) -> f k = true -> ~ In k (dkeys (snd e))) ->
          filter f (dkeys (snd (fold_left (copy_step deep h) its e))) = (filter f (dkeys (snd e)) ++ filter f (dkeys its))%list) as Q.
        { clear. induction its as [|[a l] its IHi]; intros e HL ND HN; cbn [fold_left dkeys map filter]; [now rewrite app_nil_r|].
          apply locs_cons in HL. destruct HL as [Hl HL]. cbn [snd] in Hl. inversion ND; subst.
          destruct (nth_error h l) as [q|] eqn:Q; [|apply nth_error_None in Q; lia].
          assert (exists x, snd (copy_step deep h e (a, l)) = dset (snd e) a x) as [x Ex].
          { unfold copy_step. cbn [fst snd]. rewrite Q. destruct deep; cbn; eauto. }
          rewrite IHi; auto.
          - rewrite Ex, dkeys_dset. destruct (dmem (snd e) a) eqn:M; cbn [fst].
            + apply dmem_in in M. destruct (f a) eqn:Fa; auto. exfalso. apply (HN a); auto. now left.
            + rewrite filter_app. cbn [filter]. destruct (f a); rewrite <- ?app_assoc, ?app_nil_r; auto.
          - intros k Hk Fk. rewrite Ex, in_dkeys_dset. intros [->|Hin]; [contradiction|]. apply (HN k); auto. now right. }
        unfold hd'. rewrite Q; auto.
        -- rewrite D1, dkeys_dset. destruct (dmem (snd hd) k) eqn:M; [apply dmem_in in M; contradiction|].
           rewrite filter_app. cbn [filter]. rewrite Fk.
           assert (filter f (dkeys (snd hd)) = []) as ->; [now apply filter_none|reflexivity].
        -- intros k' Hk' Fk'. rewrite D1, in_dkeys_dset. intros [->|Hin]; [contradiction|]. apply Hf in Hin. congruence.
      * apply P2. rewrite D1. intros k' Hk'. apply in_dkeys_dset in Hk'. destruct Hk' as [->|Hk']; auto.
Qed.

Lemma default_keys_in num names k : In k (default_keys num names) <->
  exists n p, (1 <= n <= num)%nat /\ In p names /\ k = key p n.
Proof.
  unfold default_keys. rewrite in_flat_map. split.
  - intros (n & Hn & H). apply in_seq in Hn. apply in_map_iff in H. destruct H as (p & <- & Hp). exists n, p. repeat split; auto; lia.
  - intros (n & p & Hn & Hp & ->). exists n. split; [apply in_seq; lia|]. apply in_map_iff. eauto.
Qed.

Lemma reduce_copy_spec deep h ps h' out :
  reduce_copy deep h ps = (h', out) -> locs_ok h (ps_items ps) -> NoDup (dkeys (ps_items ps)) ->
  let defaults := default_keys (ps_num ps) (split (b_name (ps_basis ps))) in
  b_name (ps_basis out) = b_name (ps_basis ps) /\ b_num (ps_basis out) = ps_num ps /\
  ps_num out = ps_num ps /\ ps_letters out = ps_letters ps /\ ps_pp out = split (b_name (ps_basis ps)) /\
  (forall l, (l < length h)%nat -> nth_error h' l = nth_error h l) /\
  (forall k, In k (dkeys (ps_items out)) <-> In k (dkeys (ps_items ps)) \/ In k defaults) /\
  (forall k, In k (dkeys (ps_items ps)) -> get_param h' (ps_items out) k = get_param h (ps_items ps) k /\
     if deep then exists l, dget (ps_items out) k = Some l /\ (length h <= l)%nat
     else dget (ps_items out) k = dget (ps_items ps) k) /\
  (forall k, ~ In k (dkeys (ps_items ps)) -> In k defaults ->
     get_param h' (ps_items out) k = Some parameter_default) /\
  (forall f, (forall k, In k defaults -> f k = false) ->
     filter f (dkeys (ps_items out)) = filter f (dkeys (ps_items ps))).
Proof.
  intros E HL ND defaults. unfold reduce_copy, parameters_init in E.
  set (hd0 := fold_left (fun hd k => set_new hd k parameter_default)
     (default_keys (ps_num ps) (split (b_name (basis_init (b_name (ps_basis ps)) (ps_num ps))))) (h, [])) in *.
  change (split (b_name (basis_init (b_name (ps_basis ps)) (ps_num ps)))) with (split (b_name (ps_basis ps))) in *.
  fold defaults in hd0.
  destruct (init_fold_gen defaults (h, [])) as (I1 & [t I2] & I3 & I4 & I5 & I6 & I7).
  { intros k l []. }
  fold hd0 in I1, I2, I3, I4, I5, I6, I7. cbn [fst snd] in *.
  destruct hd0 as [h1 d1] eqn:E0. cbn [fst snd ps_items ps_basis ps_num ps_pp ps_letters] in *.
  change (fun (hd : heap * dict nat) (kl : string * nat) => if deep then match nth_error h (snd kl) with
     | Some p => set_new hd (fst kl) p | None => hd end else (fst hd, dset (snd hd) (fst kl) (snd kl)))
   with (copy_step deep h) in E.
  destruct (copy_loop deep h (ps_items ps) (h1, d1) HL ND) as ([t2 C1] & C2 & C3 & C4 & C5 & C6).
  { exists t. auto. } { auto. }
  destruct (fold_left (copy_step deep h) (ps_items ps) (h1, d1)) as [h2 d2] eqn:E2. cbn [fst snd] in *.
  inversion E; subst h' out; clear E. cbn [ps_items ps_basis ps_num ps_pp ps_letters b_name b_num basis_init].
  do 5 (split; [reflexivity|]).
  split; [|split; [|split; [|split]]].
    + intros l Hl. rewrite C1, I2, <- app_assoc. now apply nth_error_app1.
    + intro k. rewrite C3, I5. cbn. tauto.
    + intros k Hk. apply dget_some_key in Hk. destruct Hk as [l El]. apply dget_in in El as Hin.
      destruct (C5 k l Hin) as [A B]. split.
      * rewrite A. unfold get_param. now rewrite El.
      * destruct deep; [|congruence]. destruct B as (l' & B1 & B2). exists l'. split; auto.
        rewrite I2, app_length in B2. lia.
    + intros k Hk Hd. unfold get_param. rewrite C4 by auto. specialize (I7 k Hd). unfold get_param in I7.
      destruct (dget d1 k) as [l|] eqn:Dk; [|discriminate]. rewrite C1, nth_error_app1; auto. apply nth_error_Some. congruence.
    + intros f Hf. apply C6. intros k Hk. apply I5 in Hk. cbn in Hk. destruct Hk as [[]|Hk]. auto.
Qed.
