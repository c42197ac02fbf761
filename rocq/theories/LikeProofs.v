(** Proofs about set_vary_params/get_vary_params and evaluation histories. *)
From Coq Require Import Reals String Arith Bool Lia Lra List.
From Verif Require Import Py PyFloat PyFacts PyFloatFacts Params ParamsProofs Kepler Basis RVModel Likelihood LikeSpec.
Import ListNotations.
Open Scope R_scope.

Lemma agree_refl P v : agree P v v.
Proof. split; auto. intros i r s H H'. rewrite H in H'. inversion H'; subst. auto. Qed.

Lemma agree_sym P v w : agree P v w -> agree P w v.
Proof.
  intros [L H]. split; auto. intros i r s A B. destruct (H i s r B A) as (? & ? & ? & [?|?]); repeat split; auto.
Qed.

Lemma agree_trans P v w x : agree P v w -> agree P w x -> agree P v x.
Proof.
  intros [L H] [L' H']. split; [congruence|]. intros i r s A B.
  destruct (nth_error w i) as [q|] eqn:E.
  2:{ apply nth_error_None in E. assert (i < length v)%nat by (apply nth_error_Some; congruence). lia. }
  destruct (H i r q A E) as (? & ? & ? & Hv), (H' i q s E B) as (? & ? & ? & Hv').
  repeat split; try congruence. destruct Hv, Hv'; auto. right. congruence.
Qed.

Lemma agree_weaken (P Q : nat -> Prop) v w : (forall i, P i -> Q i) -> agree P v w -> agree Q v w.
Proof. intros HPQ [L H]. split; auto. intros i r s A B. destruct (H i r s A B) as (? & ? & ? & [?|?]); repeat split; auto. Qed.

Lemma agree_get P v w i : agree P v w -> ~ P i -> nth_error v i = nth_error w i.
Proof.
  intros [L H] N. destruct (nth_error v i) as [r|] eqn:E, (nth_error w i) as [s|] eqn:E'; auto.
  - destruct (H i r s E E') as (? & ? & ? & [?|?]); [contradiction|]. destruct r, s; cbn in *; subst; auto.
  - apply nth_error_None in E'. assert (i < length v)%nat by (apply nth_error_Some; congruence). lia.
  - apply nth_error_None in E. assert (i < length w)%nat by (apply nth_error_Some; congruence). lia.
Qed.

Lemma agree_none P v w i : agree P v w -> nth_error v i = None -> nth_error w i = None.
Proof. intros [L _] H. apply nth_error_None in H. apply nth_error_None. lia. Qed.

Lemma agree_some P v w i r : agree P v w -> nth_error v i = Some r ->
  exists x, nth_error w i = Some (mkRow x (r_vary r) (r_scale r) (r_lin r)) /\ (P i \/ x = r_val r).
Proof.
  intros [L H] A. destruct (nth_error w i) as [s|] eqn:E.
  - destruct (H i r s A E) as (B & C & D & F). exists (r_val s). split; [rewrite B, C, D; destruct s; auto|].
    destruct F; auto.
  - apply nth_error_None in E. assert (i < length v)%nat by (apply nth_error_Some; congruence). lia.
Qed.

Lemma length_setval v i x : length (setval v i x) = length v.
Proof. unfold setval. destruct (nth_error v i); auto. apply length_list_upd. Qed.

Lemma nth_setval_same v i x r : nth_error v i = Some r ->
  nth_error (setval v i x) i = Some (mkRow x (r_vary r) (r_scale r) (r_lin r)).
Proof.
  intro H. unfold setval. rewrite H. apply nth_list_upd_same. apply nth_error_Some. congruence.
Qed.

Lemma nth_setval_other v i x j : i <> j -> nth_error (setval v i x) j = nth_error v j.
Proof. intro H. unfold setval. destruct (nth_error v i); auto. now apply nth_list_upd_other. Qed.

Lemma agree_setval (P : nat -> Prop) v i x : P i -> agree P v (setval v i x).
Proof.
  intro HP. split; [symmetry; apply length_setval|]. intros j r s A B.
  destruct (Nat.eq_dec i j) as [->|N].
  - rewrite (nth_setval_same _ _ _ _ A) in B. inversion B; cbn; auto.
  - rewrite nth_setval_other in B by auto. assert (r = s) by congruence. subst. auto.
Qed.

(** setting the same row in two agreeing arrays *)
Lemma agree_setval2 (P Q : nat -> Prop) v w i x : agree P v w -> (forall j, P j -> j <> i -> Q j) ->
  agree Q (setval v i x) (setval w i x).
Proof.
  intros A HPQ. destruct A as [L H]. split; [now rewrite !length_setval|]. intros j r s B C.
  destruct (Nat.eq_dec i j) as [->|N].
  - destruct (nth_error v j) as [a|] eqn:EA.
    2:{ apply nth_error_None in EA. assert (j < length (setval v j x))%nat by (apply nth_error_Some; congruence).
        rewrite length_setval in *. lia. }
    destruct (nth_error w j) as [b|] eqn:EB.
    2:{ apply nth_error_None in EB. assert (j < length (setval w j x))%nat by (apply nth_error_Some; congruence).
        rewrite length_setval in *. lia. }
    rewrite (nth_setval_same _ _ _ _ EA) in B. rewrite (nth_setval_same _ _ _ _ EB) in C.
    destruct (H j a b EA EB) as (? & ? & ? & _). inversion B; inversion C; cbn. auto.
  - rewrite nth_setval_other in B, C by auto. destruct (H j r s B C) as (? & ? & ? & [?|?]); repeat split; auto.
Qed.

(** ** the list of varied rows *)
Lemma where_vary_in k v i :
  In i (where_vary k v) <-> exists j r, i = (k + j)%nat /\ nth_error v j = Some r /\ r_vary r = true.
Proof.
  revert k. induction v as [|r s IH]; intro k; cbn [where_vary].
  - split; [contradiction|]. intros (j & q & _ & H & _). destruct j; discriminate.
  - assert (In i (where_vary (S k) s) <-> exists j q, i = (k + S j)%nat /\ nth_error s j = Some q /\ r_vary q = true) as Q.
    { rewrite IH. split; intros (j & q & A & B & C); exists j, q; repeat split; auto; lia. }
    destruct (r_vary r) eqn:E; cbn [In].
    + split.
      * intros [<-|H]; [exists 0%nat, r; repeat split; auto|]. apply Q in H. destruct H as (j & q & ? & ? & ?).
        exists (S j), q. auto.
      * intros ([|j] & q & A & B & C).
        -- left. lia.
        -- right. apply Q. exists j, q. auto.
    + rewrite Q. split.
      * intros (j & q & ? & ? & ?). exists (S j), q. auto.
      * intros ([|j] & q & A & B & C); [cbn in B; inversion B; subst; congruence|]. exists j, q. auto.
Qed.

Lemma list_vary_in v i : In i (list_vary_params v) <-> is_free v i.
Proof.
  unfold list_vary_params, is_free. rewrite where_vary_in. cbn. split.
  - intros (j & r & -> & A & B). eauto.
  - intros (r & A & B). exists i, r. auto.
Qed.

Lemma where_vary_nodup v : forall k, NoDup (where_vary k v).
Proof.
  induction v as [|r s IH]; intro k; cbn; [constructor|]. destruct (r_vary r); auto. constructor; auto.
  rewrite where_vary_in. intros (j & q & A & _). lia.
Qed.

Lemma list_vary_nodup v : NoDup (list_vary_params v).
Proof. apply where_vary_nodup. Qed.

Lemma list_vary_length v : length (list_vary_params v) = n_free v.
Proof.
  unfold list_vary_params, n_free. generalize 0%nat. induction v as [|r s IH]; intro k; cbn; auto.
  destruct (r_vary r); cbn; auto.
Qed.


Lemma where_vary_flags v : forall w k, map r_vary v = map r_vary w -> where_vary k v = where_vary k w.
Proof.
  induction v as [|r s IH]; intros [|r' s'] k H; cbn in *; try discriminate; auto.
  inversion H as [[A B]]. rewrite A. rewrite (IH s' (S k) B). reflexivity.
Qed.

Lemma agree_flags P v w : agree P v w -> map r_vary v = map r_vary w.
Proof.
  intros [L H]. revert w L H. revert P. induction v as [|r s IH]; intros P [|r' s'] L H; cbn in *; try discriminate; auto.
  f_equal; [apply (H 0%nat); auto|]. apply (IH (fun i => P (S i))); [lia|]. intros i. apply (H (S i)).
Qed.

Lemma list_vary_agree P v w : agree P v w -> list_vary_params v = list_vary_params w.
Proof. intro H. apply where_vary_flags. eapply agree_flags; eauto. Qed.

Lemma n_free_agree P v w : agree P v w -> n_free v = n_free w.
Proof. intro H. rewrite <- !list_vary_length. now rewrite (list_vary_agree _ _ _ H). Qed.

(** ** the assignment loop *)
Lemma assign_frame is : forall v vals v' r, assign_loop v is vals = (v', r) -> agree (fun i => In i is) v v'.
Proof.
  induction is as [|i is IH]; intros v vals v' r H; cbn [assign_loop] in H.
  - inversion H; subst. apply agree_refl.
  - destruct vals as [|x vals]; [inversion H; subst; apply agree_refl|].
    destruct (Nat.ltb i (length v)); [|inversion H; subst; apply agree_refl].
    destruct (assign_loop (setval v i x) is vals) as [v1 r1] eqn:E. inversion H; subst.
    apply agree_trans with (setval v i x); [apply agree_setval; now left|].
    eapply agree_weaken; [|eapply IH; eauto]. intros; now right.
Qed.

Lemma assign_ok is : forall v vals, NoDup is -> (forall i, In i is -> (i < length v)%nat) -> length vals = length is ->
  exists v', assign_loop v is vals = (v', Ok (length is)) /\
    forall j i x, nth_error is j = Some i -> nth_error vals j = Some x ->
      exists r, nth_error v i = Some r /\ nth_error v' i = Some (mkRow x (r_vary r) (r_scale r) (r_lin r)).
Proof.
  induction is as [|i is IH]; intros v vals ND HL HV.
  - exists v. split; [reflexivity|]. intros [|j]; discriminate.
  - destruct vals as [|x vals]; [discriminate|]. inversion ND as [|? ? N1 N2]; subst. cbn [assign_loop].
    assert (i < length v)%nat as Hi by (apply HL; now left).
    destruct (Nat.ltb_spec i (length v)); [|lia].
    destruct (IH (setval v i x) vals N2) as (v' & E & H').
    { intros k Hk. rewrite length_setval. apply HL. now right. } { cbn in HV. lia. }
    rewrite E. exists v'. split; [reflexivity|].
    destruct (nth_error v i) as [r|] eqn:ER; [|apply nth_error_None in ER; lia].
    intros [|j] k z A B; cbn in A, B.
    + inversion A; inversion B; subst k z. exists r. split; auto.
      pose proof (assign_frame _ _ _ _ _ E) as F.
      rewrite <- (agree_get _ _ _ _ F N1). now apply nth_setval_same.
    + destruct (H' j k z A B) as (q & C & D). exists q. split; auto.
      assert (i <> k) by (intros ->; apply N1; eapply nth_error_In; eauto).
      now rewrite nth_setval_other in C.
Qed.

Lemma assign_short is : forall v vals, (length vals < length is)%nat -> exists v', assign_loop v is vals = (v', Err IndexError).
Proof.
  induction is as [|i is IH]; intros v vals H; [cbn in H; lia|]. destruct vals as [|x vals]; cbn [assign_loop]; [eauto|].
  destruct (Nat.ltb i (length v)); [|eauto]. destruct (IH (setval v i x) vals) as [v' ->]; [cbn in H; lia|]. eauto.
Qed.

Lemma assign_long is : forall v vals, (forall i, In i is -> (i < length v)%nat) -> (length is <= length vals)%nat ->
  exists v', assign_loop v is vals = (v', Ok (length is)).
Proof.
  induction is as [|i is IH]; intros v vals HL H; [cbn; eauto|]. destruct vals as [|x vals]; [cbn in H; lia|].
  cbn [assign_loop]. destruct (Nat.ltb_spec i (length v)); [|assert (i < length v)%nat by (apply HL; now left); lia].
  destruct (IH (setval v i x) vals) as [v' ->].
  - intros k Hk. rewrite length_setval. apply HL. now right.
  - cbn in H. lia.
  - cbn. eauto.
Qed.

(** ** C17 *)

(** the cache is absent or was computed with the present flags *)
Definition cache_fresh (cache : option (list nat)) (v : list row) : Prop :=
  cache = None \/ cache = Some (list_vary_params v).

Lemma refresh_fresh cache v n : cache_fresh cache v -> refresh cache v n = list_vary_params v.
Proof. intros [->| ->]; cbn; auto. now destruct (Nat.eqb _ _). Qed.

(** a cache of another length is recomputed *)
Lemma refresh_other c v n : length c <> n -> refresh (Some c) v n = list_vary_params v.
Proof. intro H. cbn. now rewrite (proj2 (Nat.eqb_neq _ _) H). Qed.

Lemma vary_range v i : In i (list_vary_params v) -> (i < length v)%nat.
Proof. intro H. apply list_vary_in in H. destruct H as (r & H & _). apply nth_error_Some. congruence. Qed.

Lemma map_res_nth {A B} (f : A -> res B) l ys : length ys = length l ->
  (forall j a y, nth_error l j = Some a -> nth_error ys j = Some y -> f a = Ok y) -> map_res f l = Ok ys.
Proof.
  revert ys. induction l as [|a l IH]; intros [|y ys] L H; cbn in *; try discriminate; auto.
  rewrite (H 0%nat a y) by auto. cbn [bind]. rewrite (IH ys); [reflexivity|lia|]. intros j. apply (H (S j)).
Qed.

Lemma set_get v cache vals : cache_fresh cache v -> length vals = n_free v ->
  exists v' c', set_vary_params cache v vals = (v', c', Ok tt) /\
    get_vary_params c' v' = (c', Ok vals) /\ agree (is_free v) v v'.
Proof.
  intros HC HL. unfold set_vary_params. rewrite (refresh_fresh _ _ _ HC).
  destruct (assign_ok (list_vary_params v) v vals (list_vary_nodup v) (vary_range v)) as (v' & E & H).
  { now rewrite list_vary_length. }
  rewrite E. exists v', (Some (list_vary_params v)).
  split. { cbn [bind]. now rewrite list_vary_length, <- HL, Nat.eqb_refl. }
  split.
  - unfold get_vary_params. f_equal. apply map_res_nth; [now rewrite list_vary_length|].
    intros j i x A B. destruct (H j i x A B) as (r & C & D). rewrite D. reflexivity.
  - eapply agree_weaken; [|eapply assign_frame; eauto]. intros i. apply list_vary_in.
Qed.

(** two arrays that agree up to the varied rows and hold the same varied values are equal *)
Lemma nth_error_ext' {A} (a b : list A) : (forall i, nth_error a i = nth_error b i) -> a = b.
Proof.
  revert b. induction a as [|x a IH]; intros [|y b] H; auto.
  - specialize (H 0%nat). discriminate.
  - specialize (H 0%nat). discriminate.
  - pose proof (H 0%nat) as E. inversion E. f_equal. apply IH. intro i. apply (H (S i)).
Qed.

Lemma get_ok v cache : cache_fresh cache v -> exists vals c, get_vary_params cache v = (c, Ok vals) /\
  c = Some (list_vary_params v) /\ length vals = n_free v /\
  forall j i, nth_error (list_vary_params v) j = Some i -> exists r, nth_error v i = Some r /\ nth_error vals j = Some (r_val r).
Proof.
  intro HC. unfold get_vary_params.
  assert (match cache with Some c => c | None => list_vary_params v end = list_vary_params v) as ->.
  { destruct HC as [->| ->]; auto. }
  exists (map (fun i => match nth_error v i with Some r => r_val r | None => None end) (list_vary_params v)), (Some (list_vary_params v)).
  split; [f_equal; apply map_res_nth; [apply map_length|]|split; [auto|split; [rewrite map_length; apply list_vary_length|]]].
  - intros j i x A B. rewrite (map_nth_error _ _ _ A) in B. inversion B.
    pose proof (vary_range v i (nth_error_In _ _ A)). destruct (nth_error v i) eqn:E; auto. apply nth_error_None in E. lia.
  - intros j i A. pose proof (vary_range v i (nth_error_In _ _ A)).
    destruct (nth_error v i) as [r|] eqn:E; [|apply nth_error_None in E; lia]. exists r. split; auto.
    rewrite (map_nth_error _ _ _ A), E. reflexivity.
Qed.

(** setting the old values again restores the array *)
Lemma set_back v cache vals old : cache_fresh cache v -> length vals = n_free v ->
  snd (get_vary_params cache v) = Ok old ->
  exists v' c' c'', set_vary_params cache v vals = (v', c', Ok tt) /\
    set_vary_params c' v' old = (v, c'', Ok tt).
Proof.
  intros HC HL HO. destruct (get_ok v cache HC) as (old' & c0 & G1 & G2 & G3 & G4).
  rewrite G1 in HO. cbn in HO. inversion HO; subst old'. clear HO.
  destruct (set_get v cache vals HC HL) as (v' & c' & S1 & S2 & S3).
  assert (list_vary_params v' = list_vary_params v) as EL by (symmetry; eapply list_vary_agree; eauto).
  assert (c' = Some (list_vary_params v)) as EC.
  { unfold set_vary_params in S1. destruct (assign_loop _ _ _) as [a b]. inversion S1. f_equal. now apply refresh_fresh. }
  assert (cache_fresh c' v') as HC' by (right; congruence).
  assert (length old = n_free v') as HL' by (rewrite G3; eapply n_free_agree; eauto).
  destruct (set_get v' c' old HC' HL') as (v'' & c'' & T1 & T2 & T3).
  exists v', c', c''. split; auto. rewrite T1. assert (v'' = v) as ->; auto.
  apply nth_error_ext'. intro i.
  destruct (in_dec Nat.eq_dec i (list_vary_params v)) as [Hi|Hi].
  - apply In_nth_error in Hi. destruct Hi as [j Hj]. destruct (G4 j i Hj) as (r & A & B).
    unfold set_vary_params in T1. rewrite (refresh_fresh _ _ _ HC'), EL in T1.
    destruct (assign_ok (list_vary_params v) v' old (list_vary_nodup v)) as (u & E & H).
    { intros k Hk. destruct S3 as [<- _]. now apply vary_range. } { now rewrite list_vary_length. }
    rewrite E in T1. inversion T1; subst u. destruct (H j i _ Hj B) as (q & C & D). rewrite D.
    destruct (agree_some _ _ _ _ _ S3 A) as (x & F & _). rewrite F in C. inversion C; subst q. cbn. rewrite A. now destruct r.
  - rewrite <- (agree_get _ v' v'' i T3).
    + symmetry. apply (agree_get _ _ _ _ S3). now rewrite <- list_vary_in.
    + rewrite <- list_vary_in. now rewrite EL.
Qed.

Lemma set_wrong_length v cache vals : cache_fresh cache v -> length vals <> n_free v ->
  exists v' c e, set_vary_params cache v vals = (v', c, Err e) /\
    (e = if Nat.ltb (length vals) (n_free v) then IndexError else AssertionError) /\ agree (is_free v) v v'.
Proof.
  intros HC HL. unfold set_vary_params. rewrite (refresh_fresh _ _ _ HC).
  destruct (assign_loop v (list_vary_params v) vals) as [v' r] eqn:E.
  assert (agree (is_free v) v v') as A.
  { eapply agree_weaken; [|eapply assign_frame; eauto]. intros i. apply list_vary_in. }
  destruct (Nat.ltb_spec (length vals) (n_free v)) as [H|H].
  - destruct (assign_short (list_vary_params v) v vals) as [u Q]; [now rewrite list_vary_length|].
    rewrite Q in E. inversion E; subst v' r. exists u, (Some (list_vary_params v)), IndexError. split; [reflexivity|]. auto.
  - destruct (assign_long (list_vary_params v) v vals (vary_range v)) as [u Q]; [now rewrite list_vary_length|].
    rewrite Q in E. inversion E; subst v' r. exists u, (Some (list_vary_params v)), AssertionError. split; [|auto].
    cbn [bind]. rewrite list_vary_length. rewrite (proj2 (Nat.eqb_neq (n_free v) (length vals))); auto.
Qed.

(** stale cache: flags changed since, number of varied parameters not *)
Lemma stale_cache : exists v0 v1 c x v2 c2,
  fst (get_vary_params None v0) = c /\ map r_val v1 = map r_val v0 /\ n_free v1 = 1%nat /\
  set_vary_params c v1 [Some x] = (v2, c2, Ok tt) /\
  exists r r', nth_error v1 0 = Some r /\ r_vary r = false /\ nth_error v2 0 = Some r' /\ r_val r' <> r_val r.
Proof.
  exists [mkRow (Some 1) true (Some 0) false; mkRow (Some 2) false (Some 0) false],
         [mkRow (Some 1) false (Some 0) false; mkRow (Some 2) true (Some 0) false], (Some [0%nat]), 5,
         [mkRow (Some 5) false (Some 0) false; mkRow (Some 2) true (Some 0) false], (Some [0%nat]).
  repeat split. do 2 eexists. repeat split. cbn. intro H. inversion H. lra.
Qed.
