(** Theorems for C62. *)
From Coq Require Import Reals String Ascii Arith Bool Sorted Lia List.
From Verif Require Import Py PyFacts Params ParamsProofs ParamsSpec Basis ModelComp ModelCompSpec ModelCompProofs IcCompare IcSpec IcProofs IcLabels.
Import ListNotations.
Open Scope string_scope.

Lemma firsts_ext {A} (R S : A -> A -> Prop) l r : (forall a b, In a l -> In b l -> R a b <-> S a b) -> firsts R l r -> firsts S l r.
Proof.
  intros H (ix & So & F & C). exists ix. split; auto. split; auto. intro i. rewrite C.
  split; intros (x & E & N); exists x; (split; auto); intros j y Hj Ey K; apply (N j y Hj Ey); apply H; eauto using nth_error_In.
Qed.
Lemma firsts_in {A} (R : A -> A -> Prop) l r : firsts R l r -> incl r l.
Proof.
  intros (ix & _ & F & _). intros x I. clear - F I. induction F as [|i y ix r E F IH]; [destruct I|]. destruct I as [<-|I]; auto. eapply nth_error_In; eauto.
Qed.
(** no two of the result are the same; everything is represented *)
Lemma firsts_diff {A} (R : A -> A -> Prop) l r : firsts R l r ->
  forall p q a b, (p < q)%nat -> nth_error r p = Some a -> nth_error r q = Some b -> ~ R a b.
Proof.
  intros (ix & So & F & C) p q a b H Ea Eb.
  assert (K : forall p a, nth_error r p = Some a -> exists i, nth_error ix p = Some i /\ nth_error l i = Some a).
  { clear - F. induction F as [|i x ix r E F IH]; intros [|p] a Ea; cbn in *; try discriminate; eauto. injection Ea as <-. eauto. }
  destruct (K p a Ea) as (i & Ei & Ea'), (K q b Eb) as (j & Ej & Eb').
  assert (i < j)%nat. { clear - So H Ei Ej. revert p q H Ei Ej. induction So as [|k ix S IH F]; intros [|p] [|q] H Ei Ej; cbn in *; try discriminate; try lia.
    - injection Ei as ->. rewrite Forall_forall in F. apply F. eapply nth_error_In; eauto.
    - apply (IH p q); auto. lia. }
  destruct (proj1 (C j) (nth_error_In _ _ Ej)) as (x & Ex & N). assert (x = b) as -> by congruence. eapply N; eauto.
Qed.
Lemma firsts_all {A} (R : A -> A -> Prop) (Rd : forall a b, {R a b} + {~ R a b}) l r :
  (forall a, R a a) -> (forall a b c, R a b -> R b c -> R a c) -> firsts R l r -> forall x, In x l -> exists y, In y r /\ R y x.
Proof.
  intros Rr Rt (ix & So & F & C) x I. apply In_nth_error in I as (i & Ei). revert x Ei. induction i as [i IH] using lt_wf_ind. intros x Ei.
  assert (D : (exists j y, (j < i)%nat /\ nth_error l j = Some y /\ R y x) \/ forall j y, (j < i)%nat -> nth_error l j = Some y -> ~ R y x).
  { clear - Rd. induction i as [|i IH]; [right; lia|]. destruct IH as [(j & y & Hj & Ey & K)|N]; [left; exists j, y; auto|].
    destruct (nth_error l i) as [z|] eqn:Ez; [destruct (Rd z x); [left; exists i, z; auto|]|]; right; intros j y Hj Ey; (destruct (Nat.eq_dec j i) as [->|]; [congruence|apply (N j y); auto; lia]). }
  destruct D as [(j & y & Hj & Ey & K)|N].
  - destruct (IH j Hj y Ey) as (z & Iz & Kz). exists z. split; eauto.
  - exists x. split; auto. assert (Hi : In i ix) by (apply C; eauto). clear - F Hi Ei. induction F as [|k y ix r E F IH]; [destruct Hi|].
    destruct Hi as [->|Hi]; [left; congruence|right; auto].
Qed.

Section T.
  Variables (X : Type) (env : menv) (letter : string -> res string) (fit : pst -> pst * res X).
  Let fl := fit_labelled X env letter fit.
  Definition own (x : fitted X) : Prop := labels env letter (f_model x) = Ok (f_labels x).
  Lemma fl_own s x : snd (fl s) = Ok x -> own x.
  Proof.
    unfold fl, fit_labelled, own. destruct (fit s) as [s' [y|e]]; cbn; [|discriminate]. destruct (labels env letter s') eqn:E; cbn; [|discriminate].
    intro H. injection H as <-. exact E.
  Qed.
  Lemma comp_own ps p : AP (fitted X) own (model_comp (fitted X) env fl ps p).
  Proof. apply comp_app. exact fl_own. Qed.

  Lemma runs_own ts p E : runs env fl ts p E -> Forall own E.
  Proof.
    intro R. induction R as [|t ts p p1 E Es H R IH]; [constructor|]. apply Forall_app. split; auto.
    destruct (comp_own [t] p) as (p' & E' & r & F & A). specialize (A []). rewrite H in A. injection A as _ -> _. exact F.
  Qed.
  Lemma runs_det ts p E : runs env fl ts p E -> forall E', runs env fl ts p E' -> E = E'.
  Proof.
    intro R. induction R as [|t ts p p1 E Es H R IH]; intros E' R'; inversion R'; subst; auto.
    match goal with H1 : model_comp _ _ _ _ _ _ = _, H2 : model_comp _ _ _ _ _ _ = _ |- _ => rewrite H1 in H2; injection H2 as <- <- end. f_equal. auto.
  Qed.
  Lemma loop_unmixed ts : forall p pl out d,
    (forall E, runs env fl ts p E -> Forall (fun t => str_in t choices = true) ts ->
      exists p1 out1, type_loop X env letter fit true ts p pl out d = (p1, (d ++ E)%list, Ok ((pl ++ ts)%list, out1)) /\
        (out = [] /\ ts <> [] \/ dedup X out = dedup X d -> dedup X out1 = dedup X (d ++ E))) /\
    (forall p1 d1 r, type_loop X env letter fit true ts p pl out d = (p1, d1, Ok r) -> (exists E, runs env fl ts p E) /\ Forall (fun t => str_in t choices = true) ts).
  Proof.
    induction ts as [|t ts IH]; intros p pl out d; cbn [type_loop].
    - split.
      + intros E R _. inversion R; subst. rewrite !app_nil_r. exists p, out. split; auto. intros [(_ & H)|H]; [easy|auto].
      + intros p1 d1 r H. split; [exists []; constructor|constructor].
    - fold fl. destruct (comp_own [t] p) as (p' & E1 & r1 & F1 & A1). split.
      + intros E R C. pose proof (Forall_inv C) as Ct. pose proof (Forall_inv_tail C) as Cts. rewrite Ct. cbn [negb]. rewrite (A1 d).
        assert (HR : exists p0 E0 Es, model_comp (fitted X) env fl [t] p [] = (p0, E0, Ok tt) /\ runs env fl ts p0 Es /\ E = (E0 ++ Es)%list).
        { inversion R; subst. eauto 6. }
        destruct HR as (p0 & E0 & Es & HM & HR & ->).
        pose proof (A1 []) as A0. rewrite HM in A0. injection A0 as <- <- <-. cbn [app].
        destruct (proj1 (IH p0 (pl ++ [t])%list (out ++ (d ++ E0))%list (d ++ E0)%list) Es HR Cts) as (p2 & out1 & Eq & D).
        exists p2, out1. rewrite Eq, <- !app_assoc. split; [reflexivity|]. intros Hc. rewrite app_assoc. apply D. right.
        destruct Hc as [(-> & _)|Hc]; [reflexivity|].
        rewrite dedup_app, Hc, <- dedup_app. apply dedup_again.
      + intros p1 d1 r. destruct (str_in t choices) eqn:Ec; cbn [negb]; [|discriminate]. rewrite (A1 d). destruct r1 as [u|]; [|discriminate].
        intro H. destruct (proj2 (IH _ _ _ _) _ _ _ H) as ((E & R) & C). split; [|constructor; auto].
        exists (E1 ++ E)%list. apply (runs_cons env fl t ts p p' E1 E); auto. destruct u. apply (A1 []).
  Qed.
  Lemma str_in_choices t : str_in t choices = true <-> In t COMPARISONS.
  Proof. apply str_in_spec. Qed.

  Lemma unmixed_main a post ts : a_simple a = false -> a_mixed a = Some false -> a_type a = Some ts -> ts <> [] ->
    forall d,
    (forall E, incl ts COMPARISONS -> runs env fl ts (ip_post post) E ->
      exists r, ic_compare X env letter fit a post d = ((d ++ E)%list, Ok r) /\
        firsts (fun x y => counter_eq (f_labels x) (f_labels y) = true) (d ++ E) r) /\
    (forall d1 r, ic_compare X env letter fit a post d = (d1, Ok r) -> incl ts COMPARISONS /\ exists E, runs env fl ts (ip_post post) E).
  Proof.
    intros S M T N d. unfold ic_compare. rewrite S, M. unfold types_of. rewrite T.
    set (pp := match a_fixjitter a with Some true => fix_jitter post | _ => post end).
    assert (ip_post pp = ip_post post) as Ep by (unfold pp; destruct (a_fixjitter a) as [[|]|]; reflexivity). rewrite Ep.
    destruct (loop_unmixed ts (ip_post post) [] [] d) as (H1 & H2). split.
    - intros E C R. destruct (H1 E R) as (p1 & out1 & Eq & D). { apply Forall_forall. intros t I. apply str_in_choices. auto. }
      rewrite Eq. exists (dedup X out1). split; auto. rewrite D by (left; auto). apply dedup_firsts.
    - intros d1 r. destruct (type_loop X env letter fit true ts (ip_post post) [] [] d) as [[p1 d1'] [[pl out]|e]] eqn:E; [|discriminate].
      intros _. destruct (H2 _ _ _ eq_refl) as (R & C). split; auto. intros t I. apply str_in_choices. rewrite Forall_forall in C. auto.
  Qed.

  Lemma loop_mixed ts : forall p pl out d, incl ts COMPARISONS -> type_loop X env letter fit false ts p pl out d = (p, d, Ok ((pl ++ ts)%list, out)).
  Proof.
    induction ts as [|t ts IH]; intros p pl out d C; cbn [type_loop]; [now rewrite app_nil_r|].
    assert (str_in t choices = true) as -> by (apply str_in_choices, C; now left). cbn [negb]. rewrite IH, <- app_assoc; auto. intros x I. apply C. now right.
  Qed.
  Lemma mixed_main a post ts : a_simple a = false -> a_mixed a <> Some false -> a_type a = Some ts -> incl ts COMPARISONS ->
    forall d p E o, model_comp (fitted X) env fl ts (ip_post post) [] = (p, E, o) ->
      ic_compare X env letter fit a post d = ((d ++ E)%list, match o with Ok _ => Ok (d ++ E)%list | Err e => Err e end).
  Proof.
    intros S M T C d p E o H. unfold ic_compare. rewrite S. unfold types_of. rewrite T.
    set (pp := match a_fixjitter a with Some true => fix_jitter post | _ => post end).
    assert (ip_post pp = ip_post post) as Ep by (unfold pp; destruct (a_fixjitter a) as [[|]|]; reflexivity). rewrite Ep.
    assert ((match a_mixed a with Some false => true | _ => false end) = false) as -> by (destruct (a_mixed a) as [[|]|]; congruence).
    rewrite loop_mixed by auto. cbn [app]. fold fl. destruct (comp_own ts (ip_post post)) as (p' & E' & r & _ & A).
    pose proof (A []) as A0. rewrite H in A0. injection A0 as <- <- <-. rewrite A. destruct o; reflexivity.
  Qed.
  Lemma bad_type a post d : a_simple a = false -> a_type a = None -> ic_compare X env letter fit a post d = (d, Err AssertionError).
  Proof.
    intros S T. unfold ic_compare. rewrite S. unfold types_of. rewrite T. set (u := match a_mixed a with Some false => true | _ => false end). reflexivity.
  Qed.
  Lemma jitter_ignored a post d f : ic_compare X env letter fit (mkArgs (a_type a) (a_simple a) (a_mixed a) f) post d = ic_compare X env letter fit a post d.
  Proof.
    unfold ic_compare. cbn [a_simple a_fixjitter a_mixed]. destruct (a_simple a); auto.
    assert (Ep : forall g, ip_post (match g with Some true => fix_jitter post | _ => post end) = ip_post post) by (intros [[|]|]; reflexivity).
    rewrite (Ep f), (Ep (a_fixjitter a)). reflexivity.
  Qed.

  (** in terms of free parameters *)
  Variables (kp ep : string) (L : nat -> string) (n : nat).
  Hypothesis NO : names_ok env letter kp ep L n.
  Hypothesis FN : forall s x, snd (fit s) = Ok x -> length (m_rows (fst (fit s))) = n.
  Lemma comp_len ps p : AP (fitted X) (fun x => own x /\ length (m_rows (f_model x)) = n) (model_comp (fitted X) env fl ps p).
  Proof.
    apply comp_app. intros s x H. split; [now apply (fl_own s)|]. unfold fl, fit_labelled in H. pose proof (FN s) as K.
    destruct (fit s) as [s' [y|e]]; cbn in H; [|discriminate]. destruct (labels env letter s'); cbn in H; [|discriminate]. injection H as <-. exact (K y eq_refl).
  Qed.
  Lemma runs_len ts p E : runs env fl ts p E -> Forall (fun x => own x /\ length (m_rows (f_model x)) = n) E.
  Proof.
    intro R. induction R as [|t ts p p1 E Es H R IH]; [constructor|]. apply Forall_app. split; auto.
    destruct (comp_len [t] p) as (p' & E' & r & F & A). specialize (A []). rewrite H in A. injection A as _ -> _. exact F.
  Qed.
  Lemma unmixed_free a post ts E : a_simple a = false -> a_mixed a = Some false -> a_type a = Some ts -> ts <> [] -> incl ts COMPARISONS ->
    runs env fl ts (ip_post post) E ->
    exists r, ic_compare X env letter fit a post [] = (E, Ok r) /\ firsts (fun x y => same_free env kp ep (f_model x) (f_model y)) E r.
  Proof.
    intros S M T N C R. destruct (proj1 (unmixed_main a post ts S M T N []) E C R) as (r & Eq & F). exists r. split; auto.
    eapply firsts_ext; [|exact F]. intros x y Ix Iy. pose proof (runs_len _ _ _ R) as W. rewrite Forall_forall in W. destruct (W x Ix) as (O1 & L1), (W y Iy) as (O2 & L2).
    exact (labels_same env letter kp ep L n NO _ _ _ _ L1 L2 O1 O2).
  Qed.
End T.

Lemma labels_iff : forall env letter kp ep L n, names_ok env letter kp ep L n ->
  forall s1 s2, length (m_rows s1) = n -> length (m_rows s2) = n ->
  exists l1 l2, labels env letter s1 = Ok l1 /\ labels env letter s2 = Ok l2 /\ NoDup l1 /\
    ((forall x, count_occ string_dec l1 x = count_occ string_dec l2 x) <-> same_free env kp ep s1 s2).
Proof.
  exact (fun env letter kp ep L n NO s1 s2 H1 H2 =>
    match labels_ok env letter kp ep L n NO s1 H1, labels_ok env letter kp ep L n NO s2 H2 with
    | ex_intro _ l1 (conj E1 (conj N1 _)), ex_intro _ l2 (conj E2 _) =>
        ex_intro _ l1 (ex_intro _ l2 (conj E1 (conj E2 (conj N1 (iff_trans (iff_sym (counter_eq_spec l1 l2)) (labels_same env letter kp ep L n NO s1 s2 l1 l2 H1 H2 E1 E2))))))
    end).
Qed.
Lemma firsts_means : forall A (R : A -> A -> Prop) (Rd : forall a b, {R a b} + {~ R a b}) l r,
  (forall a, R a a) -> (forall a b c, R a b -> R b c -> R a c) -> firsts R l r ->
  incl r l /\ (forall p q a b, (p < q)%nat -> nth_error r p = Some a -> nth_error r q = Some b -> ~ R a b) /\
  (forall x, In x l -> exists y, In y r /\ R y x).
Proof.
  exact (fun A R Rd l r Rr Rt F => conj (firsts_in R l r F) (conj (firsts_diff R l r F) (firsts_all R Rd l r Rr Rt F))).
Qed.
