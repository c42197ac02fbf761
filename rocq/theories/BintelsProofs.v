From Coq Require Import Reals String Arith Bool Lra Lia Permutation Sorted OrderedTypeEx List.
From Verif Require Import Py PyFacts PyFloat PyFloatFacts Timebin TimebinSpec TimebinProofs.
Import ListNotations.
Open Scope R_scope.

Lemma filter_length_le {A} (f : A -> bool) l : (length (filter f l) <= length l)%nat.
Proof. induction l as [|x l IH]; cbn; auto. destruct (f x); cbn; lia. Qed.

(** ** np.unique *)
Lemma s_insert_in x y l : In y (s_insert x l) <-> y = x \/ In y l.
Proof.
  induction l as [|z l IH]; cbn; [intuition|]. destruct (String.eqb_spec x z) as [->|N]; [cbn; intuition|].
  destruct (String.ltb x z); cbn; [intuition|]. rewrite IH. intuition.
Qed.
Lemma np_unique_in l y : In y (np_unique l) <-> In y l.
Proof.
  unfold np_unique. induction l as [|x l IH]; [easy|]. cbn [fold_right]. rewrite s_insert_in, IH. cbn. intuition.
Qed.

Definition slt (a b : string) : Prop := String.ltb a b = true.
Lemma slt_lt a b : slt a b <-> String_as_OT.lt a b.
Proof.
  unfold slt, String.ltb. rewrite <- String_as_OT.cmp_lt. change (String_as_OT.cmp a b) with (String.compare a b).
  destruct (String.compare a b); split; congruence.
Qed.
Lemma slt_trans a b c : slt a b -> slt b c -> slt a c.
Proof. rewrite !slt_lt. apply String_as_OT.lt_trans. Qed.
Lemma slt_irrefl a : ~ slt a a.
Proof. rewrite slt_lt. intro H. apply (String_as_OT.lt_not_eq _ _ H). apply String_as_OT.eq_refl. Qed.
Lemma slt_total a b : a <> b -> String.ltb a b = false -> slt b a.
Proof.
  unfold slt, String.ltb. rewrite (String.compare_antisym b a). intros N H.
  destruct (String.compare a b) eqn:E; cbn; auto; try discriminate. apply String.compare_eq_iff in E. easy.
Qed.

Lemma s_insert_sorted x l : StronglySorted slt l -> StronglySorted slt (s_insert x l).
Proof.
  induction 1 as [|y l S IH F]; cbn; [repeat constructor|].
  destruct (String.eqb_spec x y) as [->|N]; [constructor; auto|].
  destruct (String.ltb x y) eqn:E.
  - constructor; [constructor; auto|]. constructor; auto. rewrite Forall_forall in *. intros z Hz. apply (slt_trans x y z); auto.
  - constructor; auto. rewrite Forall_forall in *. intros z Hz. apply s_insert_in in Hz. destruct Hz as [->|Hz]; auto. now apply slt_total.
Qed.
Lemma np_unique_nodup l : NoDup (np_unique l).
Proof.
  assert (StronglySorted slt (np_unique l)) as S.
  { unfold np_unique. induction l; cbn [fold_right]; [constructor|]. now apply s_insert_sorted. }
  induction S as [|x r S IH F]; constructor; auto. intro I. rewrite Forall_forall in F. apply (slt_irrefl x). auto.
Qed.

(** ** order of first appearance *)
Definition before (a b : nat * string) : Prop := (fst a < fst b)%nat.
Lemma n_insert_perm x l : Permutation (n_insert x l) (x :: l).
Proof.
  induction l as [|y l IH]; cbn [n_insert]; auto. destruct (Nat.ltb (fst x) (fst y)); auto.
  etransitivity; [apply perm_skip; exact IH|apply perm_swap].
Qed.
Lemma n_insert_sorted x l : ~ In (fst x) (map fst l) -> StronglySorted before l -> StronglySorted before (n_insert x l).
Proof.
  intros N S. induction S as [|y l S IH F]; cbn [n_insert]; [repeat constructor|].
  destruct (Nat.ltb_spec (fst x) (fst y)) as [L|L].
  - constructor; [constructor; auto|]. constructor; auto. rewrite Forall_forall in *. intros z Hz. specialize (F z Hz).
    unfold before in *. lia.
  - constructor; [apply IH; intro; apply N; now right|]. rewrite Forall_forall in *. intros z Hz.
    apply (Permutation_in _ (n_insert_perm x l)) in Hz. destruct Hz as [<-|Hz]; auto. unfold before.
    assert (fst y <> fst x) by (intro E; apply N; left; auto). lia.
Qed.
Lemma sort_sorted l : NoDup (map fst l) -> StronglySorted before (fold_right n_insert [] l) /\ Permutation (fold_right n_insert [] l) l.
Proof.
  induction l as [|x l IH]; cbn [fold_right map]; [split; constructor|]. intro N. inversion N; subst. destruct (IH H2) as [S P]. split.
  - apply n_insert_sorted; auto. intro I. apply H1. apply (Permutation_in _ (Permutation_map fst P)). auto.
  - rewrite n_insert_perm. now constructor.
Qed.

Lemma before_perm_eq a : forall b, StronglySorted before a -> StronglySorted before b -> Permutation a b -> a = b.
Proof.
  induction a as [|x a IH]; intros b Sa Sb P.
  - apply Permutation_nil in P. auto.
  - destruct b as [|y b]; [symmetry in P; apply Permutation_nil in P; discriminate|].
    inversion Sa as [|? ? Sa1 Sa2]; subst. inversion Sb as [|? ? Sb1 Sb2]; subst. rewrite Forall_forall in *.
    assert (x = y) as ->.
    { assert (In y (x :: a)) as [->|Hy] by (eapply Permutation_in; [symmetry; exact P|now left]); auto.
      assert (In x (y :: b)) as [->|Hx] by (eapply Permutation_in; [exact P|now left]); auto.
      specialize (Sa2 y Hy). specialize (Sb2 x Hx). unfold before in *. lia. }
    f_equal. apply IH; auto. eapply Permutation_cons_inv; eauto.
Qed.

Lemma first_index_spec x l : In x l -> nth_error l (first_index x l) = Some x.
Proof.
  induction l as [|y l IH]; [easy|]. intros H. cbn. destruct (String.eqb_spec x y) as [->|N]; auto.
  destruct H as [->|H]; [easy|]. cbn. auto.
Qed.
Lemma first_index_inj l x y : In x l -> In y l -> first_index x l = first_index y l -> x = y.
Proof. intros Hx Hy E. apply first_index_spec in Hx, Hy. rewrite E in Hx. congruence. Qed.

(** the specified order, annotated with indices, is sorted and has the same elements *)
Lemma filter_ne_first x y l : x <> y -> (first_index y (filter (fun z => negb (String.eqb z x)) l) <= first_index y l)%nat.
Proof.
  intro N. induction l as [|z l IH]; cbn; auto. destruct (String.eqb_spec z x) as [->|Nz]; cbn.
  - destruct (String.eqb_spec y x) as [->|]; [easy|]. lia.
  - destruct (String.eqb_spec y z); lia.
Qed.
Lemma filter_mono x y z l : x <> y -> x <> z -> In y l -> In z l ->
  (first_index y (filter (fun s => negb (String.eqb s x)) l) < first_index z (filter (fun s => negb (String.eqb s x)) l))%nat ->
  (first_index y l < first_index z l)%nat.
Proof.
  intros Ny Nz. induction l as [|s l IH]; [easy|]. intros Hy Hz. cbn. destruct (String.eqb_spec s x) as [->|Ns]; cbn.
  - destruct (String.eqb_spec y x) as [->|_]; [easy|]. destruct (String.eqb_spec z x) as [->|_]; [easy|].
    destruct Hy as [->|Hy]; [easy|]. destruct Hz as [->|Hz]; [easy|]. intro H. specialize (IH Hy Hz H). lia.
  - destruct (String.eqb_spec y s) as [->|Ny']; destruct (String.eqb_spec z s) as [->|Nz']; try lia.
    destruct Hy as [->|Hy]; [easy|]. destruct Hz as [->|Hz]; [easy|]. intro H. specialize (IH Hy Hz ltac:(lia)). lia.
Qed.

Lemma firsts_in l r : firsts l r -> forall y, In y r <-> In y l.
Proof.
  induction 1 as [|x l r H IH]; intro y; [easy|]. cbn. rewrite IH, filter_In.
  destruct (String.eqb_spec y x) as [->|N]; cbn; intuition; congruence.
Qed.
Lemma firsts_nodup l r : firsts l r -> NoDup r.
Proof.
  induction 1 as [|x l r H IH]; constructor; auto. intro I. apply (firsts_in _ _ H) in I. apply filter_In in I.
  rewrite String.eqb_refl in I. destruct I as [_ I]. discriminate.
Qed.
Lemma firsts_sorted l r : firsts l r -> StronglySorted (fun a b => (first_index a l < first_index b l)%nat) r.
Proof.
  induction 1 as [|x l r H IH]; constructor.
  - pose proof (firsts_in _ _ H) as I. assert (forall y, In y r -> In y l /\ x <> y) as I2.
    { intros y Hy. apply I in Hy. apply filter_In in Hy. destruct Hy as [Hy1 Hy2]. split; auto.
      intros ->. rewrite String.eqb_refl in Hy2. discriminate. }
    clear I H. induction IH as [|y r S IHs F]; constructor.
    + apply IHs. intros z Hz. apply I2. now right.
    + rewrite Forall_forall in *. intros z Hz. specialize (F z Hz). destruct (I2 y (or_introl eq_refl)) as [Iy Ny].
      destruct (I2 z (or_intror Hz)) as [Iz Nz]. cbn. rewrite (proj2 (String.eqb_neq y x)), (proj2 (String.eqb_neq z x)) by congruence.
      apply -> Nat.succ_lt_mono. eapply filter_mono; eauto.
  - rewrite Forall_forall. intros y Hy. apply (firsts_in _ _ H) in Hy. apply filter_In in Hy. destruct Hy as [_ Hy].
    cbn. rewrite String.eqb_refl. destruct (String.eqb y x); [discriminate|lia].
Qed.

Lemma uniqsort_firsts l r : firsts l r -> uniqsort l = r.
Proof.
  intro F. unfold uniqsort. set (ann := map (fun s => (first_index s l, s))).
  assert (forall u, NoDup u -> (forall y, In y u -> In y l) -> NoDup (map fst (ann u))) as ND.
  { intros u Hu Hl. unfold ann. rewrite map_map. cbn. induction Hu as [|x u Nx Hu IH]; cbn; constructor.
    - rewrite in_map_iff. intros (y & E & Hy). apply first_index_inj in E; [subst; auto| |]; apply Hl; [now right|now left].
    - apply IH. intros; apply Hl; now right. }
  destruct (sort_sorted (ann (np_unique l))) as [S P].
  { apply ND; [apply np_unique_nodup|]. intros y Hy. now apply np_unique_in. }
  assert (fold_right n_insert [] (ann (np_unique l)) = ann r) as ->.
  { apply before_perm_eq; auto.
    - unfold ann. pose proof (firsts_sorted l r F) as Sr. clear - Sr. induction Sr as [|x r S IH Fx]; cbn; constructor; auto.
      rewrite Forall_forall in *. intros z Hz. apply in_map_iff in Hz. destruct Hz as (y & <- & Hy). apply Fx. auto.
    - rewrite P. unfold ann. apply Permutation_map. apply NoDup_Permutation; [apply np_unique_nodup|eapply firsts_nodup; eauto|].
      intro y. rewrite np_unique_in. symmetry. now apply firsts_in. }
  unfold ann. rewrite map_map. cbn. apply map_id.
Qed.
Lemma firsts_exist : forall n l, (length l <= n)%nat -> exists r, firsts l r.
Proof.
  induction n as [|n IH]; intros l L.
  - destruct l; [|cbn in L; lia]. exists []. constructor.
  - destruct l as [|x l]; [exists []; constructor|]. destruct (IH (filter (fun y => negb (String.eqb y x)) l)) as [r Hr].
    + cbn in L. pose proof (filter_length_le (fun y => negb (String.eqb y x)) l). lia.
    + exists (x :: r). now constructor.
Qed.

(** ** bintels *)
Lemma select_in {A} telvec tel (l : list A) x : In x (select telvec tel l) <-> exists i, nth_error telvec i = Some tel /\ nth_error l i = Some x.
Proof.
  unfold select. revert l. induction telvec as [|t v IH]; intros [|a l]; cbn; try (split; [easy|intros (i & H1 & H2)]; destruct i; cbn in *; discriminate).
  destruct (String.eqb_spec t tel) as [->|N]; cbn.
  - rewrite (IH l). split.
    + intros [->|(i & H1 & H2)]; [exists 0%nat; auto|exists (S i); auto].
    + intros ([|i] & H1 & H2); cbn in *; [left; congruence|right; eauto].
  - rewrite (IH l). split.
    + intros (i & H1 & H2). exists (S i). auto.
    + intros ([|i] & H1 & H2); cbn in *; [congruence|eauto].
Qed.
Lemma select_all {A} tel telvec (l : list A) : (forall y, In y telvec -> y = tel) -> length telvec = length l -> select telvec tel l = l.
Proof.
  unfold select. revert l. induction telvec as [|t v IH]; intros [|a l] H L; cbn in *; try lia; auto.
  rewrite (H t (or_introl eq_refl)), String.eqb_refl. cbn. f_equal. apply IH; auto.
Qed.

Lemma per_tel_ok argsort fuel pts telvec binsize tels : forall out labels bs,
  Forall2 (fun tel b => timebin argsort fuel (select telvec tel pts) binsize = Ok b) tels bs ->
  per_tel argsort fuel pts telvec binsize tels out labels =
    Ok (out ++ concat bs, (labels ++ concat (map (fun tb => repeat (fst tb) (length (snd tb))) (combine tels bs)))%list).
Proof.
  induction tels as [|t tels IH]; intros out labels bs H; inversion H; subst; cbn [per_tel].
  - cbn. now rewrite !app_nil_r.
  - rewrite H2. cbn [bind]. rewrite (IH _ _ _ H4). cbn [concat combine map fst snd]. now rewrite !app_assoc.
Qed.

Lemma firstn_same (t : string) n : forall v, (n <= length v)%nat -> (forall y, In y v -> y = t) -> firstn n v = repeat t n.
Proof.
  induction n as [|n IH]; intros [|x v] L H; cbn in *; try lia; auto. f_equal; [apply H; now left|apply IH; [lia|]]. intros; apply H; now right.
Qed.

Lemma unique_one l t : np_unique l = [t] -> firsts l [t] /\ forall y, In y l -> y = t.
Proof.
  intro E. assert (forall y, In y l -> y = t) as H.
  { intros y Hy. apply np_unique_in in Hy. rewrite E in Hy. destruct Hy as [->|[]]; auto. }
  split; auto. destruct (firsts_exist (length l) l (le_n _)) as [r F].
  pose proof (firsts_nodup _ _ F) as ND. pose proof (firsts_in _ _ F) as I.
  assert (In t r) as It by (apply I, np_unique_in; rewrite E; now left).
  destruct r as [|a r]; [easy|]. assert (a = t) as -> by (apply H, I; now left).
  destruct r as [|b r]; auto. exfalso. inversion ND; subst. apply H2. left. symmetry. symmetry. apply H, I. now (right; left).
Qed.

(** the property.  tels: the instruments in order of first appearance; bs: their bins *)
Lemma bintels_spec argsort fuel pts telvec binsize tels : is_argsort argsort -> 0 < binsize ->
  Forall (fun p => 0 < pt_e p) pts -> length telvec = length pts -> (length pts < fuel)%nat -> firsts telvec tels ->
  exists bs, Forall2 (fun tel b => timebin argsort fuel (select telvec tel pts) binsize = Ok b) tels bs /\
    bintels argsort fuel pts telvec binsize =
      Ok (concat bs, concat (map (fun tb => repeat (fst tb) (length (snd tb))) (combine tels bs))).
Proof.
  intros A B E L F Ft.
  assert (forall tel, In tel telvec -> exists b, timebin argsort fuel (select telvec tel pts) binsize = Ok b) as Hb.
  { intros tel Ht. destruct (timebin_bins argsort (select telvec tel pts) binsize fuel A B) as (gs & Hg & _).
    - apply In_nth_error in Ht. destruct Ht as [i Hi]. destruct (nth_error pts i) as [p|] eqn:Ep.
      + intro En. assert (In p (select telvec tel pts)) as I by (apply select_in; eauto). rewrite En in I. easy.
      + apply nth_error_None in Ep. assert (i < length telvec)%nat by (apply nth_error_Some; congruence). lia.
    - unfold select. rewrite map_length. pose proof (filter_length_le (fun q => String.eqb (fst q) tel) (combine telvec pts)).
      rewrite combine_length in H. lia.
    - eauto. }
  assert (exists bs, Forall2 (fun tel b => timebin argsort fuel (select telvec tel pts) binsize = Ok b) tels bs) as [bs Hbs].
  { pose proof (fun y => proj1 (firsts_in _ _ Ft y)) as I. clear Ft. induction tels as [|t tels IH].
    - exists []. constructor.
    - destruct IH as [bs Hbs]; [intros; apply I; now right|]. destruct (Hb t) as [b Eb]; [apply I; now left|]. exists (b :: bs). now constructor. }
  exists bs. split; auto. unfold bintels. destruct (Nat.eqb_spec (length (np_unique telvec)) 1) as [N|N].
  - destruct (np_unique telvec) as [|t [|? ?]] eqn:Eu; try discriminate. destruct (unique_one telvec t Eu) as [F1 H1].
    assert (tels = [t]) as -> by (rewrite <- (uniqsort_firsts _ _ F1); symmetry; now apply uniqsort_firsts).
    inversion Hbs as [|? b ? ? Hb1 Hb2]; subst. inversion Hb2; subst. rewrite select_all in Hb1 by auto.
    rewrite Hb1. cbn. rewrite !app_nil_r. f_equal. f_equal. apply firstn_same; auto.
    assert (pts <> []) as Np.
    { intros ->. destruct telvec; [discriminate|]. cbn in L. lia. }
    destruct (timebin_inverse_variance argsort pts binsize fuel b A B Np E F Hb1) as (_ & _ & Hl). lia.
  - rewrite (uniqsort_firsts _ _ Ft), (per_tel_ok _ _ _ _ _ _ [] [] bs Hbs). reflexivity.
Qed.
