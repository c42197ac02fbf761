(** Facts about dictionaries, results and extended floats. *)
From Coq Require Import Reals List String Bool Lia Lra.
From Verif Require Import Py.
Import ListNotations.

Lemma rltb_true a b : rltb a b = true <-> (a < b)%R.
Proof. unfold rltb; destruct (Rlt_dec a b); split; intro; try easy. Qed.
Lemma rltb_false a b : rltb a b = false <-> (b <= a)%R.
Proof. unfold rltb; destruct (Rlt_dec a b); split; intro; try easy; lra. Qed.
Lemma rleb_true a b : rleb a b = true <-> (a <= b)%R.
Proof. unfold rleb; destruct (Rle_dec a b); split; intro; try easy. Qed.
Lemma rleb_false a b : rleb a b = false <-> (b < a)%R.
Proof. unfold rleb; destruct (Rle_dec a b); split; intro; try easy; lra. Qed.
Lemma reqb_true a b : reqb a b = true <-> a = b.
Proof. unfold reqb; destruct (Req_EM_T a b); split; intro; try easy. Qed.
Lemma reqb_false a b : reqb a b = false <-> a <> b.
Proof. unfold reqb; destruct (Req_EM_T a b); split; intro; try easy. Qed.

Section Dict.
Context {V : Type}.
Implicit Types (d : dict V) (k : string) (v : V).

Lemma dget_dset_same d k v : dget (dset d k v) k = Some v.
Proof.
  induction d as [|[k' v'] r IH]; cbn; [now rewrite String.eqb_refl|].
  destruct (String.eqb k k') eqn:E; cbn; rewrite E; auto.
Qed.

Lemma dget_dset_other d k k2 v : k2 <> k -> dget (dset d k v) k2 = dget d k2.
Proof.
  intro H. induction d as [|[k' v'] r IH]; cbn.
  - destruct (String.eqb_spec k2 k); congruence.
  - destruct (String.eqb_spec k k'); cbn.
    + subst. destruct (String.eqb_spec k2 k'); congruence.
    + destruct (String.eqb k2 k'); auto.
Qed.

Lemma dget_dremove_other d k k2 : k2 <> k -> dget (dremove d k) k2 = dget d k2.
Proof.
  intro H. induction d as [|[k' v'] r IH]; cbn; auto.
  destruct (String.eqb_spec k k'); cbn.
  - subst. destruct (String.eqb_spec k2 k'); congruence.
  - destruct (String.eqb k2 k'); auto.
Qed.

Lemma dget_in d k v : dget d k = Some v -> In (k, v) d.
Proof.
  induction d as [|[k' v'] r IH]; cbn; [easy|].
  destruct (String.eqb_spec k k'); [|auto]. intro H; inversion H; subst; auto.
Qed.

Lemma dget_none d k : dget d k = None <-> ~ In k (dkeys d).
Proof.
  induction d as [|[k' v'] r IH]; cbn; [tauto|].
  destruct (String.eqb_spec k k'); subst.
  - split; [discriminate|]. intro H; exfalso; apply H; auto.
  - rewrite IH. split; intros H1 H2; [|apply H1; auto].
    destruct H2; [congruence|auto].
Qed.

Lemma dget_some_key d k : In k (dkeys d) -> exists v, dget d k = Some v.
Proof.
  intro H. destruct (dget d k) eqn:E; [eauto|]. apply dget_none in E. contradiction.
Qed.

Lemma dget_key d k v : dget d k = Some v -> In k (dkeys d).
Proof. intro H. apply dget_in in H. apply (in_map fst) in H. exact H. Qed.

Lemma in_dget d k v : wf_dict d -> In (k, v) d -> dget d k = Some v.
Proof.
  unfold wf_dict. induction d as [|[k' v'] r IH]; cbn; [easy|].
  intros ND [H|H]; inversion ND; subst.
  - inversion H; subst. now rewrite String.eqb_refl.
  - destruct (String.eqb_spec k k'); subst; auto.
    exfalso. apply H2. apply (in_map fst) in H. exact H.
Qed.

Lemma dkeys_dset d k v :
  dkeys (dset d k v) = if dmem d k then dkeys d else dkeys d ++ [k].
Proof.
  unfold dmem, dkeys. induction d as [|[k' v'] r IH]; cbn; auto.
  destruct (String.eqb k k'); cbn; auto.
  rewrite IH. destruct (dget r k); auto.
Qed.

Lemma wf_dset d k v : wf_dict d -> wf_dict (dset d k v).
Proof.
  unfold wf_dict. intro H. rewrite dkeys_dset. unfold dmem.
  destruct (dget d k) eqn:E; auto.
  apply dget_none in E. apply NoDup_rev in H.
  rewrite <- (rev_involutive (dkeys d ++ [k])). apply NoDup_rev.
  rewrite rev_app_distr; cbn. constructor; auto. now rewrite <- in_rev.
Qed.

Lemma dkeys_dremove_incl d k x : In x (dkeys (dremove d k)) -> In x (dkeys d).
Proof.
  induction d as [|[k' v'] r IH]; cbn; auto.
  destruct (String.eqb k k'); cbn; intuition.
Qed.

Lemma wf_dremove d k : wf_dict d -> wf_dict (dremove d k).
Proof.
  unfold wf_dict. induction d as [|[k' v'] r IH]; cbn; auto.
  intro H; inversion H; subst. destruct (String.eqb k k'); cbn; auto.
  constructor; auto. intro Hin. apply dkeys_dremove_incl in Hin. contradiction.
Qed.

Lemma dget_dremove_same d k : wf_dict d -> dget (dremove d k) k = None.
Proof.
  unfold wf_dict. induction d as [|[k' v'] r IH]; cbn; auto.
  intro H; inversion H; subst. destruct (String.eqb_spec k k'); cbn.
  - subst. now apply dget_none.
  - destruct (String.eqb_spec k k'); [congruence|auto].
Qed.

Lemma dset_same_value d k v : dget d k = Some v -> dset d k v = d.
Proof.
  induction d as [|[k' v'] r IH]; cbn; [easy|].
  destruct (String.eqb_spec k k'); intro H.
  - inversion H; subst; auto.
  - f_equal; auto.
Qed.

Lemma dset_dset_same d k v1 v2 : dset (dset d k v1) k v2 = dset d k v2.
Proof.
  induction d as [|[k' v'] r IH]; cbn; [now rewrite String.eqb_refl|].
  destruct (String.eqb k k') eqn:E; cbn; rewrite E; auto. now rewrite IH.
Qed.

Lemma dget_dupdate_notin d d2 k :
  ~ In k (dkeys d2) -> dget (dupdate d d2) k = dget d k.
Proof.
  unfold dupdate. revert d. induction d2 as [|[k' v'] r IH]; cbn; auto.
  intros d H. rewrite IH by tauto. apply dget_dset_other. intuition.
Qed.

Lemma dget_dupdate_in d d2 k v :
  wf_dict d2 -> dget d2 k = Some v -> dget (dupdate d d2) k = Some v.
Proof.
  unfold dupdate, wf_dict. revert d. induction d2 as [|[k' v'] r IH]; cbn; [easy|].
  intros d ND. inversion ND; subst. destruct (String.eqb_spec k k').
  - subst. intro H; inversion H; subst.
    fold (dupdate (dset d k' v) r).
    rewrite dget_dupdate_notin by assumption. apply dget_dset_same.
  - intro H. apply IH; auto.
Qed.

Lemma wf_dupdate d d2 : wf_dict d -> wf_dict (dupdate d d2).
Proof.
  unfold dupdate. revert d. induction d2 as [|[k' v'] r IH]; cbn; auto.
  intros d H. apply IH. now apply wf_dset.
Qed.

Lemma dupdate_nil_app d d2 :
  wf_dict d2 -> (forall k, In k (dkeys d2) -> ~ In k (dkeys d)) -> dupdate d d2 = d ++ d2.
Proof.
  unfold dupdate, wf_dict. revert d. induction d2 as [|[k v] r IH]; cbn; intros d ND H.
  - now rewrite app_nil_r.
  - inversion ND; subst.
    assert (E : dset d k v = d ++ [(k, v)]).
    { specialize (H k (or_introl eq_refl)). clear - H.
      induction d as [|[k' v'] r' IH]; cbn; auto.
      destruct (String.eqb_spec k k'); subst; cbn in H; [tauto|].
      now rewrite IH by tauto. }
    rewrite E, IH; auto.
    + now rewrite <- app_assoc.
    + intros k0 Hk0 Hin. unfold dkeys in Hin. rewrite map_app in Hin.
      apply in_app_or in Hin. destruct Hin as [Hin|Hin].
      * now apply (H k0 (or_intror Hk0)).
      * cbn in Hin. destruct Hin as [<-|[]]. contradiction.
Qed.

Lemma dupdate_empty d2 : wf_dict d2 -> dupdate [] d2 = d2.
Proof. intro H. rewrite dupdate_nil_app; auto. Qed.

End Dict.

Lemma ext_add_assoc a b c : ext_add a (ext_add b c) = ext_add (ext_add a b) c.
Proof. destruct a, b, c; cbn; auto. f_equal. ring. Qed.
Lemma ext_add_comm a b : ext_add a b = ext_add b a.
Proof. destruct a, b; cbn; auto. f_equal. ring. Qed.
Lemma ext_add_0_l a : ext_add (Fin 0) a = a.
Proof. destruct a; cbn; auto. f_equal. ring. Qed.
