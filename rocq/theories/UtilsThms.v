(** Combined statements and concrete instances for PropertiesUtils.v. *)
From Coq Require Import Reals String ZArith Arith Bool Lra Lia Permutation Sorted List.
From Verif Require Import Py PyFacts PyFloat Timebin TimebinSpec TimebinProofs BintelsProofs Mass MassProofs.
Import ListNotations.
Open Scope R_scope.

(** o averages the points of b: within their range, and no less precise than any of them *)
Definition averages (b : list pt) (o : pt) : Prop :=
  weighted_mean b o /\
  (exists p q, In p b /\ In q b /\ pt_t p <= pt_t o <= pt_t q) /\
  (exists p q, In p b /\ In q b /\ pt_m p <= pt_m o <= pt_m q) /\
  0 < pt_e o /\ forall p, In p b -> pt_e o <= pt_e p.

Lemma extremes (f : pt -> R) b : b <> [] -> exists p q, In p b /\ In q b /\ forall x, In x b -> f p <= f x <= f q.
Proof.
  induction b as [|x b IH]; [easy|]. intros _. destruct b as [|y b].
  - exists x, x. split; [now left|]. split; [now left|]. intros z [->|[]]. lra.
  - destruct IH as (p & q & Hp & Hq & H); [easy|].
    exists (if Rle_dec (f x) (f p) then x else p), (if Rle_dec (f q) (f x) then x else q).
    destruct (Rle_dec (f x) (f p)), (Rle_dec (f q) (f x)); (split; [now (left + right)|]); (split; [now (left + right)|]);
      intros z [->|Hz]; try specialize (H _ Hz); try (specialize (H _ Hp)); lra.
Qed.

Lemma timebin_full argsort pts binsize fuel : is_argsort argsort -> 0 < binsize -> pts <> [] ->
  Forall (fun p => 0 < pt_e p) pts -> (length pts < fuel)%nat ->
  exists bins out, timebin argsort fuel pts binsize = Ok out /\
    Permutation (concat bins) pts /\ ~ In [] bins /\ Forall2 averages bins out /\ spaced binsize bins /\
    (forall b p q, In b bins -> In p b -> In q b -> Rabs (pt_t p - pt_t q) < binsize).
Proof.
  intros A B N E F. destruct (timebin_partitions argsort pts binsize fuel A B N E F) as (bins & out & T & P & W & S & D & Ne).
  exists bins, out. do 3 (split; [auto|]). split; [|auto].
  assert (forall b, In b bins -> Forall (fun p => 0 < pt_e p) b) as Pos.
  { intros b Hb. rewrite Forall_forall in *. intros p Hp. apply E. eapply Permutation_in; [exact P|]. apply in_concat. eauto. }
  clear - W Ne Pos. induction W as [|b o bins out H W IH]; constructor.
  - assert (b <> []) as Nb by (intros ->; apply Ne; now left).
    destruct (extremes pt_t b Nb) as (p & q & Hp & Hq & Ht). destruct (extremes pt_m b Nb) as (p' & q' & Hp' & Hq' & Hm).
    destruct (mean_bounds b o (pt_t p) (pt_t q) (pt_m p') (pt_m q') Nb (Pos b (or_introl eq_refl)) H) as (B1 & B2 & B3 & B4).
    { intros x Hx. split; [apply Ht|apply Hm]; auto. }
    split; auto. split; [exists p, q; auto|]. split; [exists p', q'; auto|]. auto.
  - apply IH; [intro; apply Ne; now right|]. intros; apply Pos; now right.
Qed.

(** an argsort exists *)
Fixpoint i_insert (x : R * nat) (l : list (R * nat)) : list (R * nat) :=
  match l with [] => [x] | y :: r => if rleb (fst x) (fst y) then x :: l else y :: i_insert x r end.
Definition argsort_ex (l : list R) : list nat := map snd (fold_right i_insert [] (combine l (seq 0 (length l)))).
Lemma i_insert_perm x l : Permutation (i_insert x l) (x :: l).
Proof. induction l as [|y l IH]; cbn; auto. destruct (rleb _ _); auto. etransitivity; [apply perm_skip, IH|apply perm_swap]. Qed.
Lemma i_insert_sorted x l : StronglySorted (fun a b => fst a <= fst b) l -> StronglySorted (fun a b => fst a <= fst b) (i_insert x l).
Proof.
  induction l as [|y l IH]; intro H; cbn; [repeat constructor|]. inversion H as [|? ? H1 H2]; subst. destruct (rleb (fst x) (fst y)) eqn:E.
  - apply rleb_true in E. constructor; auto. constructor; auto. eapply Forall_impl; [|exact H2]. cbn. intros; lra.
  - apply rleb_false in E. constructor; [apply IH; auto|]. eapply Permutation_Forall; [apply Permutation_sym, i_insert_perm|]. constructor; [lra|auto].
Qed.
Lemma argsort_ex_ok : is_argsort argsort_ex.
Proof.
  intro l. unfold argsort_ex. set (c := combine l (seq 0 (length l))).
  assert (Permutation (fold_right i_insert [] c) c) as P.
  { clearbody c. induction c as [|x c IH]; cbn; auto. etransitivity; [apply i_insert_perm|auto]. }
  assert (StronglySorted (fun a b => fst a <= fst b) (fold_right i_insert [] c)) as S.
  { clear P. clearbody c. induction c as [|x c IH]; cbn; [constructor|now apply i_insert_sorted]. }
  assert (forall x, In x c -> nth_error l (snd x) = Some (fst x)) as N.
  { assert (forall (l : list R) k x, In x (combine l (seq k (length l))) -> (k <= snd x)%nat /\ nth_error l (snd x - k) = Some (fst x)) as G.
    { clear. induction l as [|a l IH]; intros k x; cbn; [easy|]. intros [<-|H]; cbn; [rewrite Nat.sub_diag; auto|].
      destruct (IH _ _ H) as [L E]. split; [lia|]. replace (snd x - k)%nat with (Datatypes.S (snd x - Datatypes.S k)) by lia. exact E. }
    intros x Hx. destruct (G l 0%nat x Hx) as [_ E]. now rewrite Nat.sub_0_r in E. }
  split.
  - symmetry. etransitivity; [apply Permutation_map, P|]. unfold c.
    assert (forall (l : list R) k, map snd (combine l (seq k (length l))) = seq k (length l)) as G by (clear; induction l as [|a l IH]; intro k; cbn; [auto|now rewrite IH]).
    now rewrite G.
  - assert (forall x, In x (fold_right i_insert [] c) -> nth_error l (snd x) = Some (fst x)) as N' by (intros x Hx; apply N; eapply Permutation_in; eauto).
    clear P N. induction S as [|x s S IH F]; cbn; [constructor|].
    rewrite (N' x (or_introl eq_refl)). cbn [app]. constructor; [apply IH; intros; apply N'; now right|].
    rewrite Forall_forall in *. intros y Hy. unfold take in Hy. apply in_flat_map in Hy. destruct Hy as (i & Hi & Hy).
    apply in_map_iff in Hi. destruct Hi as (z & <- & Hz). rewrite (N' z (or_intror Hz)) in Hy. destruct Hy as [<-|[]]. now apply F.
Qed.

(** some points, with ties and out of order *)
Definition some_pts : list pt := [mkPt 5 1 2; mkPt 1 2 1; mkPt 1 3 (1 / 2); mkPt (7 / 2) 0 1].
Lemma some_pts_ok : some_pts <> [] /\ Forall (fun p => 0 < pt_e p) some_pts /\ (length some_pts < 5)%nat.
Proof. split; [easy|]. split; [repeat constructor; cbn; lra|cbn; lia]. Qed.

(** constants, in units of the Earth mass, Earth radius, etc. *)
Definition some_const : uconst := mkUconst 333000 318 1 11 1 1 23455.
Lemma some_const_ok : uconst_ok some_const.
Proof. unfold uconst_ok, some_const. cbn. lra. Qed.
