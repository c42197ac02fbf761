(** C25-C28: Posterior. *)
From Coq Require Import Reals String Arith Bool Lra Lia List Permutation.
From Verif Require Import Py PyFacts PyFloat PyFloatFacts Params Kepler Basis Prior Likelihood Posterior.
Import ListNotations.
Open Scope R_scope.

(** ** Sums of priors *)
Lemma sum_priors_ok f ps : forall xs acc, Forall2 (fun p x => f p = Ok x) ps xs ->
  sum_priors f ps acc = Ok (fold_left ext_add xs acc).
Proof.
  unfold sum_priors. induction ps as [|p ps IH]; intros xs acc H; inversion H; subst; cbn; auto.
  rewrite H2. cbn. now apply IH.
Qed.

Lemma sum_priors_inv f ps : forall acc s, sum_priors f ps acc = Ok s ->
  exists xs, Forall2 (fun p x => f p = Ok x) ps xs.
Proof.
  unfold sum_priors. induction ps as [|p ps IH]; intros acc s H; cbn in H; [exists []; constructor|].
  destruct (f p) as [x|] eqn:E; [|discriminate]. cbn in H. apply IH in H. destruct H as [xs H].
  exists (x :: xs). now constructor.
Qed.

Lemma fold_add_out xs : forall a, fold_left ext_add xs a = ext_add a (fold_left ext_add xs (Fin 0)).
Proof.
  induction xs as [|x xs IH]; intro a.
  - destruct a; cbn; auto. f_equal. ring.
  - change (fold_left ext_add xs (ext_add a x) = ext_add a (fold_left ext_add xs (ext_add (Fin 0) x))).
    rewrite IH, (IH (ext_add (Fin 0) x)), ext_add_0_l, ext_add_assoc. reflexivity.
Qed.

Lemma fold_add_perm xs ys : Permutation xs ys -> forall a, fold_left ext_add xs a = fold_left ext_add ys a.
Proof.
  induction 1; intro a; cbn; auto.
  - f_equal. rewrite <- !ext_add_assoc. now rewrite (ext_add_comm x y).
  - now rewrite IHPermutation1.
Qed.

Lemma fold_add_ninf xs : (forall x, In x xs -> x = NInf \/ exists r, x = Fin r) -> In NInf xs ->
  forall a, (a = NInf \/ exists r, a = Fin r) -> fold_left ext_add xs a = NInf.
Proof.
  induction xs as [|x xs IH]; intros H HI a Ha; [destruct HI|]. cbn.
  assert (ext_add a x = NInf \/ exists r, ext_add a x = Fin r) as Hs.
  { destruct Ha as [->|[r ->]]; destruct (H x (or_introl eq_refl)) as [->|[q ->]]; cbn; eauto. }
  destruct HI as [->|HI].
  - assert (ext_add a NInf = NInf) as -> by (destruct Ha as [->|[r ->]]; reflexivity).
    clear - H. assert (forall l, (forall x, In x l -> x = NInf \/ exists r, x = Fin r) -> fold_left ext_add l NInf = NInf) as Q.
    { induction l as [|y l IH]; intro K; auto. cbn. destruct (K y (or_introl eq_refl)) as [->|[r ->]]; cbn; apply IH; auto with datatypes. }
    apply Q. auto with datatypes.
  - apply IH; auto with datatypes.
Qed.

Section Post.
  Variables (pb : basis) (idx : dict nat) (lik : list row -> list row * res ext).

  (** logprob from the values of the priors, whatever they are *)
  Lemma post_value ps v xs : Forall2 (fun p x => prior_call pb idx v p = Ok x) ps xs ->
    post_logprob pb idx lik ps v =
    (let s := fold_left ext_add xs (Fin 0) in
     if isfinite s then (fst (lik v), do l <- snd (lik v); Ok (ext_add s l)) else (v, Ok s)).
  Proof.
    intro H. unfold post_logprob. rewrite (sum_priors_ok _ _ xs _ H). cbn zeta.
    destruct (isfinite _); auto. destruct (lik v). reflexivity.
  Qed.

  Lemma post_sum ps v rs v' l :
    Forall2 (fun p r => prior_call pb idx v p = Ok (Fin r)) ps rs -> lik v = (v', Ok l) ->
    post_logprob pb idx lik ps v = (v', Ok (ext_add (Fin (rsum rs)) l)).
  Proof.
    intros H E. rewrite (post_value ps v (map Fin rs)).
    - cbn zeta. pose proof (ext_sum_fin rs) as Q. unfold ext_sum in Q. rewrite Q, E. reflexivity.
    - clear E. induction H; cbn; constructor; auto.
  Qed.

  (** the value and the rows left behind do not depend on the likelihood *)
  Lemma post_ninf ps v xs : Forall2 (fun p x => prior_call pb idx v p = Ok x) ps xs ->
    (forall x, In x xs -> x = NInf \/ exists r, x = Fin r) -> In NInf xs ->
    post_logprob pb idx lik ps v = (v, Ok NInf).
  Proof.
    intros H K HI. rewrite (post_value ps v xs H). cbn zeta. rewrite fold_add_ninf by eauto. reflexivity.
  Qed.

  Lemma forall2_perm {A B} (P : A -> B -> Prop) l l' : Permutation l l' -> forall xs, Forall2 P l xs ->
    exists xs', Permutation xs xs' /\ Forall2 P l' xs'.
  Proof.
    induction 1; intros xs H2.
    - inversion H2; subst. eauto.
    - inversion H2; subst. destruct (IHPermutation _ H5) as (xs' & A1 & A2). exists (y :: xs'). split; auto.
    - inversion H2; subst. inversion H4; subst. exists (y1 :: y0 :: l'0). split; [constructor|]. constructor; auto.
    - destruct (IHPermutation1 _ H2) as (x1 & A1 & A2). destruct (IHPermutation2 _ A2) as (x2 & B1 & B2).
      exists x2. split; auto. now transitivity x1.
  Qed.

  Lemma post_perm ps ps' v xs : Permutation ps ps' -> Forall2 (fun p x => prior_call pb idx v p = Ok x) ps xs ->
    post_logprob pb idx lik ps v = post_logprob pb idx lik ps' v.
  Proof.
    intros P H. destruct (forall2_perm _ _ _ P _ H) as (xs' & P' & H').
    rewrite (post_value ps v xs H), (post_value ps' v xs' H'). cbn zeta. now rewrite (fold_add_perm _ _ P').
  Qed.

  (** when a prior raises, logprob raises in every order *)
  Lemma post_raises ps v p e : In p ps -> prior_call pb idx v p = Err e ->
    exists e', post_logprob pb idx lik ps v = (v, Err e').
  Proof.
    intros Hp He. unfold post_logprob. destruct (sum_priors _ ps (Fin 0)) as [s|e'] eqn:E; [|eauto].
    apply sum_priors_inv in E. destruct E as [xs F]. exfalso. clear -F Hp He.
    induction F; [destruct Hp|]. destruct Hp as [->|Hp]; [congruence|auto].
  Qed.
End Post.

(** ** get_prior_dict and check_proper_priors *)
Definition attached (s : string) (p : prior) : bool :=
  match prior_param p with Some k => String.eqb s k | None => false end.
Definition transformable (p : prior) : bool := negb (prior_extra p).

Lemma prior_dict_acc ps : forall d s, wf_dict d ->
  wf_dict (fold_left prior_dict_step ps d) /\
  dget (fold_left prior_dict_step ps d) s =
    match dget d s, filter (attached s) ps with
    | None, [] => None
    | None, l => Some l
    | Some l0, l => Some (l0 ++ l)%list
    end.
Proof.
  induction ps as [|p ps IH]; intros d s W; cbn [fold_left filter].
  - split; auto. destruct (dget d s); [now rewrite app_nil_r|auto].
  - assert (wf_dict (prior_dict_step d p)) as W'.
    { unfold prior_dict_step. destruct (prior_param p); auto. destruct (dget d s0); now apply wf_dset. }
    destruct (IH (prior_dict_step d p) s W') as [A B]. split; auto. rewrite B. unfold prior_dict_step.
    assert (attached s p = match prior_param p with Some k => String.eqb s k | None => false end) as -> by reflexivity.
    destruct (prior_param p) as [k|] eqn:E; auto. destruct (String.eqb_spec s k) as [->|N].
    + destruct (dget d k) as [l|] eqn:Ed.
      * rewrite dget_dset_same. f_equal. rewrite <- app_assoc. reflexivity.
      * rewrite dget_dset_same. reflexivity.
    + assert (dget (match dget d k with Some l => dset d k (l ++ [p])%list | None => dset d k [p] end) s = dget d s) as ->; auto.
      destruct (dget d k); now apply dget_dset_other.
Qed.

Lemma prior_dict_get ps s : dget (get_prior_dict ps) s =
  match filter (attached s) ps with [] => None | l => Some l end.
Proof. unfold get_prior_dict. destruct (prior_dict_acc ps [] s) as [_ H]; [constructor|]. exact H. Qed.

Lemma prior_dict_wf ps : wf_dict (get_prior_dict ps).
Proof. apply (prior_dict_acc ps [] ""). constructor. Qed.

Lemma prior_dict_or ps s : match dget (get_prior_dict ps) s with Some l => l | None => [] end = filter (attached s) ps.
Proof. rewrite prior_dict_get. destruct (filter _ ps); auto. Qed.

Lemma for_each_unit {A} (f : A -> res unit) l : for_each l (fun _ a => f a) tt = Ok tt <-> forall a, In a l -> f a = Ok tt.
Proof.
  induction l as [|a l IH]; cbn; [split; [intros _ ? []|auto]|].
  destruct (f a) as [[]|] eqn:E; cbn.
  - rewrite IH. split; [intros H b [<-|Hb]; auto|auto].
  - split; [discriminate|]. intro H. specialize (H a (or_introl eq_refl)). congruence.
Qed.

(** proper configuration: each free parameter has exactly one transformable
    prior of its name, and no fixed parameter has one *)
Definition proper_config (vary : list string) (ps : list prior) : Prop :=
  (forall s, In s vary -> exists p, filter (fun p => attached s p && transformable p) ps = [p]) /\
  (forall p s, In p ps -> prior_param p = Some s -> prior_extra p = false -> In s vary).

Lemma filter_filter {A} (f g : A -> bool) l : filter g (filter f l) = filter (fun x => f x && g x) l.
Proof. induction l as [|a l IH]; cbn; auto. destruct (f a) eqn:E; cbn; [destruct (g a)|]; now rewrite IH. Qed.

Lemma filter_length_le {A} (f : A -> bool) l : (length (filter f l) <= length l)%nat.
Proof. induction l as [|a l IH]; cbn; [lia|]. destruct (f a); cbn; lia. Qed.

Lemma str_mem_spec s l : str_mem s l = true <-> In s l.
Proof.
  unfold str_mem. rewrite existsb_exists. split.
  - intros (x & Hx & E). apply String.eqb_eq in E. now subst.
  - intro H. exists s. split; auto. apply String.eqb_refl.
Qed.

Lemma attached_spec s p : attached s p = true <-> prior_param p = Some s.
Proof.
  unfold attached. destruct (prior_param p); [|split; discriminate]. rewrite String.eqb_eq. split; [now intros ->|congruence].
Qed.

Lemma for_each_ext'' {A S} (f g : S -> A -> res S) l : (forall s x, f s x = g s x) -> forall s, for_each l f s = for_each l g s.
Proof. intro H. induction l as [|a l IH]; intro s; cbn; auto. rewrite H. destruct (g s a); cbn; auto. Qed.

Lemma check_iff vary ps : check_proper_priors vary ps = Ok tt <-> proper_config vary ps.
Proof.
  unfold check_proper_priors.
  set (f1 := fun pname => let l := match dget (get_prior_dict ps) pname with Some l => l | None => [] end in
       if Nat.eqb (length l) 0 then Err ValueError
       else if Nat.eqb (count_transforms l) 0 then Err ValueError
       else if Nat.ltb 1 (count_transforms l) then Err ValueError else Ok tt).
  set (f2 := fun pname => let l := match dget (get_prior_dict ps) pname with Some l => l | None => [] end in
       for_each l (fun _ p => if negb (str_mem pname vary) && negb (prior_extra p) then Err ValueError else Ok tt) tt).
  change (bind (for_each vary (fun _ s => f1 s) tt) (fun _ => for_each (dkeys (get_prior_dict ps)) (fun _ s => f2 s) tt) = Ok tt <-> proper_config vary ps).
  assert (forall s, f1 s = Ok tt <-> exists p, filter (fun p => attached s p && transformable p) ps = [p]) as H1.
  { intro s. unfold f1. rewrite prior_dict_or. cbn zeta. unfold count_transforms. rewrite filter_filter.
    fold transformable. change (fun x => attached s x && negb (prior_extra x)) with (fun x => attached s x && transformable x).
    set (l := filter (fun x => attached s x && transformable x) ps).
    assert (length l <= length (filter (attached s) ps))%nat as Hle.
    { unfold l. rewrite <- filter_filter. apply filter_length_le. }
    split.
    - destruct (Nat.eqb_spec (length (filter (attached s) ps)) 0); [discriminate|].
      destruct (Nat.eqb_spec (length l) 0); [discriminate|]. destruct (Nat.ltb_spec 1 (length l)); [discriminate|]. intros _.
      destruct l as [|p [|q r]]; cbn in *; try lia. eauto.
    - intros [p E]. fold l in E. rewrite E in *. cbn in Hle.
      destruct (Nat.eqb_spec (length (filter (attached s) ps)) 0); [lia|]. reflexivity. }
  assert (forall s, f2 s = Ok tt <-> forall p, In p ps -> prior_param p = Some s -> prior_extra p = false -> In s vary) as H2.
  { intro s. unfold f2. rewrite prior_dict_or. cbn zeta.
    rewrite (for_each_unit (fun p => if negb (str_mem s vary) && negb (prior_extra p) then Err ValueError else Ok tt)).
    split.
    - intros H p Hp E X. specialize (H p). rewrite filter_In, attached_spec, X in H. specialize (H (conj Hp E)).
      destruct (str_mem s vary) eqn:M; [now apply str_mem_spec|discriminate].
    - intros H p Hp. apply filter_In in Hp. destruct Hp as [Hp E]. apply attached_spec in E.
      destruct (prior_extra p) eqn:X; [now rewrite andb_false_r|].
      rewrite (proj2 (str_mem_spec s vary)); auto. eapply H; eauto. }
  unfold proper_config. destruct (for_each vary _ tt) as [[]|e] eqn:E.
  - cbn [bind]. rewrite (for_each_unit f2). rewrite (for_each_unit f1) in E. split.
    + intro H. split; [intros s Hs; apply H1, E, Hs|].
      intros p s Hp Hs X. apply (proj1 (H2 s)) with p; auto. apply H.
      assert (dget (get_prior_dict ps) s <> None) as Z.
      { rewrite prior_dict_get. assert (In p (filter (attached s) ps)) as Q by (apply filter_In; split; auto; now apply attached_spec).
        destruct (filter (attached s) ps); [destruct Q|discriminate]. }
      destruct (dget (get_prior_dict ps) s) eqn:D; [|congruence]. eapply dget_key; eauto.
    + intros [_ H] s _. apply H2. intros p Hp Hs X. eapply H; eauto.
  - cbn [bind]. split; [discriminate|]. intros [H _]. exfalso.
    assert (for_each vary (fun _ s => f1 s) tt = Ok tt) as Q by (apply (for_each_unit f1); intros s Hs; apply H1, H, Hs). congruence.
Qed.

(** the check either returns None or raises ValueError *)
Lemma check_raises vary ps : check_proper_priors vary ps = Ok tt \/ check_proper_priors vary ps = Err ValueError.
Proof.
  assert (forall A (f : A -> res unit) l, (forall a, f a = Ok tt \/ f a = Err ValueError) ->
            for_each l (fun _ a => f a) tt = Ok tt \/ for_each l (fun _ a => f a) tt = Err ValueError) as Q.
  { intros A f l H. induction l as [|a l IH]; cbn; auto. destruct (H a) as [-> | ->]; cbn; auto. }
  unfold check_proper_priors.
  match goal with |- bind (for_each ?l (fun _ a => @?f a) tt) _ = _ \/ _ =>
    destruct (Q _ f l) as [E|E] end.
  - intro s. cbv beta zeta. repeat destruct (_ : bool); auto;
      destruct (Nat.eqb _ _); auto; destruct (Nat.eqb _ _); auto; destruct (Nat.ltb _ _); auto.
  - cbv beta in E. rewrite E. cbn [bind].
    match goal with |- for_each ?l (fun _ a => @?f a) tt = _ \/ _ => apply (Q _ f l) end.
    intro s. cbv beta zeta.
    match goal with |- for_each ?l (fun _ a => @?f a) tt = _ \/ _ => apply (Q _ f l) end.
    intro p. cbv beta. destruct (_ && _); auto.
  - cbv beta in E. rewrite E. auto.
Qed.

(** ** prior_transform *)
Lemma find_filter {A} (f : A -> bool) l : find f l = hd_error (filter f l).
Proof. induction l as [|a l IH]; cbn; auto. destruct (f a); auto. Qed.

(** the prior whose transform a free parameter uses *)
Definition prior_for (ps : list prior) (s : string) (p : prior) : Prop :=
  In p ps /\ prior_param p = Some s /\ prior_extra p = false.

Lemma nth_upd_same {A} (l : list A) : forall i x, (i < length l)%nat -> nth_error (list_upd l i x) i = Some x.
Proof. induction l as [|a l IH]; intros [|i] x H; cbn in *; try lia; auto. apply IH. lia. Qed.
Lemma nth_upd_other {A} (l : list A) : forall i j x, i <> j -> nth_error (list_upd l i x) j = nth_error l j.
Proof. induction l as [|a l IH]; intros [|i] [|j] x H; cbn; auto; try congruence. Qed.
Lemma len_upd {A} (l : list A) : forall i x, length (list_upd l i x) = length l.
Proof. induction l as [|a l IH]; intros [|i] x; cbn; auto. Qed.

Lemma one_prior ps s q : filter (fun p => attached s p && transformable p) ps = [q] ->
  prior_for ps s q /\ forall p, prior_for ps s p -> p = q.
Proof.
  intro E. split.
  - assert (In q (filter (fun p => attached s p && transformable p) ps)) as H by (rewrite E; now left).
    apply filter_In in H. destruct H as [H K]. apply andb_true_iff in K. destruct K as [K1 K2].
    split; auto. split; [now apply attached_spec|]. unfold transformable in K2. now destruct (prior_extra q).
  - intros p (A & B & C). assert (In p (filter (fun p => attached s p && transformable p) ps)) as H.
    { apply filter_In. split; auto. unfold transformable. rewrite C, andb_true_r. now apply attached_spec. }
    rewrite E in H. destruct H as [<-|[]]. reflexivity.
Qed.

Section Transform.
  Variables (ppf : R -> R) (ps : list prior).

  Lemma pt_loop_ok inplace : forall names ind x u,
    (forall s, In s names -> exists p, filter (fun p => attached s p && transformable p) ps = [p]) ->
    length x = length u -> (ind + length names <= length u)%nat -> (inplace = true -> x = u) ->
    (forall j s p z, nth_error names j = Some s -> prior_for ps s p -> nth_error u (ind + j) = Some z -> is_ok (transform ppf p z)) ->
    exists x', pt_loop ppf (get_prior_dict ps) inplace ind names x u = Ok (x', if inplace then x' else u) /\
      length x' = length x /\
      (forall i, (i < ind)%nat \/ (ind + length names <= i)%nat -> nth_error x' i = nth_error x i) /\
      (forall j s p z, nth_error names j = Some s -> prior_for ps s p -> nth_error u (ind + j) = Some z ->
         exists y, transform ppf p z = Ok y /\ nth_error x' (ind + j) = Some y).
  Proof.
    induction names as [|s names IH]; intros ind x u HU HX HL HI HT; cbn [pt_loop].
    - exists x. split; [destruct inplace; auto; rewrite (HI eq_refl); auto|]. split; auto. split; auto. intros [|j]; discriminate.
    - cbn [length] in HL. destruct (HU s (or_introl eq_refl)) as [p Hp]. destruct (one_prior _ _ _ Hp) as [P1 P2].
      assert (exists l, dget (get_prior_dict ps) s = Some l /\ find (fun p => negb (prior_extra p)) l = Some p) as (l & Dl & Fl).
      { rewrite prior_dict_get. rewrite <- filter_filter in Hp. destruct (filter (attached s) ps) as [|a r] eqn:E; [discriminate|].
        eexists; split; eauto. rewrite find_filter. fold transformable. rewrite Hp. reflexivity. }
      unfold dget_res. rewrite Dl. cbn [bind]. rewrite Fl.
      destruct (nth_error u ind) as [z|] eqn:Ez; [|apply nth_error_None in Ez; lia]. cbn [bind].
      destruct (HT 0%nat s p z) as [y Ey]; auto; [rewrite Nat.add_0_r; auto|]. rewrite Ey. cbn [bind].
      unfold aset. destruct (Nat.ltb_spec ind (length x)); [|lia]. cbn [bind].
      set (x1 := list_upd x ind y). set (u1 := if inplace then x1 else u).
      assert (length x1 = length x) as L1 by apply len_upd.
      assert (length u1 = length u) as L2 by (unfold u1; destruct inplace; lia).
      assert (forall i, i <> ind -> nth_error u1 i = nth_error u i) as NU.
      { intros i Hi. unfold u1. destruct inplace; auto. unfold x1. rewrite nth_upd_other by auto. now rewrite (HI eq_refl). }
      destruct (IH (S ind) x1 u1) as (x' & E' & L' & F' & V').
      + intros; apply HU; now right.
      + lia.
      + lia.
      + intro; unfold u1; subst inplace; auto.
      + intros j t q w Hj Hq Hw. rewrite NU in Hw by lia. apply (HT (S j) t q w); auto. now rewrite Nat.add_succ_r.
      + exists x'. split; [rewrite E'; unfold u1; destruct inplace; auto|]. split; [lia|]. split.
        * intros i Hi. cbn [length] in Hi. rewrite F' by lia. apply nth_upd_other. lia.
        * intros [|j] t q w Hj Hq Hw.
          -- cbn in Hj. injection Hj as <-. rewrite Nat.add_0_r in *. rewrite (P2 q Hq). assert (w = z) by congruence. subst w.
             exists y. split; auto. rewrite F' by lia. apply nth_upd_same. auto.
          -- cbn in Hj. destruct (V' j t q w Hj Hq) as (y' & A & B).
             { rewrite NU by lia. rewrite <- Hw. f_equal. lia. }
             exists y'. split; auto. rewrite <- B. f_equal. lia.
  Qed.

  (** after a successful check *)
  Lemma transform_ok vary inplace u : check_proper_priors vary ps = Ok tt -> length u = length vary ->
    (forall i s p z, nth_error vary i = Some s -> prior_for ps s p -> nth_error u i = Some z -> is_ok (transform ppf p z)) ->
    exists x, prior_transform ppf vary ps inplace u = Ok (x, if inplace then x else u) /\ length x = length u /\
      forall i s z, nth_error vary i = Some s -> nth_error u i = Some z ->
        exists p y, prior_for ps s p /\ (forall q, prior_for ps s q -> q = p) /\
                    transform ppf p z = Ok y /\ nth_error x i = Some y.
  Proof.
    intros HC HL HT. apply check_iff in HC. destruct HC as [HU _].
    destruct (pt_loop_ok inplace vary 0 u u) as (x & E & L & _ & V); auto; [lia|].
    exists x. split; auto. split; auto. intros i s z Hs Hz.
    destruct (HU s) as [p Hp]; [eapply nth_error_In; eauto|]. destruct (one_prior _ _ _ Hp) as [P1 P2].
    destruct (V i s p z Hs P1 Hz) as (y & A & B). eauto 8.
  Qed.
End Transform.

(** ** Nested sampling *)
Section NS.
  Variables (pb : basis) (idx : dict nat) (lik : list row -> list row * res ext).

  (** priors the nested-sampling split handles: a transformable prior has a
      parameter name, a constraint accepts finite=True and then changes only a
      rejection *)
  Definition splittable (v : list row) (p : prior) : Prop :=
    if prior_extra p
    then takes_finite p = true /\
         forall r, prior_call pb idx v p = Ok (Fin r) -> prior_eval true pb idx v p = Ok (Fin r)
    else exists s, prior_param p = Some s.

  Lemma library_splittable v p : (match p with PEcc _ _ | PPosK _ => True
                                  | PGaussian _ _ _ | PHard _ _ _ | PJeffreys _ _ _ _ | PModJeffreys _ _ _ _ _ | PBaseline _ _ _ => True
                                  | _ => False end) -> splittable v p.
  Proof.
    unfold splittable. destruct p; cbn; intro H; try (destruct H); eauto.
    - split; auto. intro r. unfold prior_call. cbn. unfold ecc_call. rename planets into pl. rename upperlims into lims.
      assert (forall pl lims, ecc_loop false (split (b_name pb)) idx v pl lims = Ok None ->
                ecc_loop true (split (b_name pb)) idx v pl lims = Ok None) as Q.
      { clear. induction pl as [|n pl IH]; intros lims H; cbn in *; auto. destruct (ecc_of _ idx v n); [|discriminate]. cbn [bind] in *.
        destruct lims as [|w lims]; [discriminate|]. destruct (_ || _); [discriminate|auto]. }
      assert (forall pl lims x, ecc_loop false (split (b_name pb)) idx v pl lims = Ok (Some x) -> x = NInf) as Q'.
      { clear. induction pl as [|n pl IH]; intros lims x H; cbn in *; [discriminate|]. destruct (ecc_of _ idx v n); [|discriminate]. cbn [bind] in *.
        destruct lims as [|w lims]; [discriminate|]. destruct (_ || _); [|eauto]. cbn in H. congruence. }
      destruct (ecc_loop false _ idx v pl lims) as [[x|]|] eqn:E; cbn [bind]; try discriminate.
      + apply Q' in E. subst. discriminate.
      + intro H'. rewrite (Q _ _ E). cbn [bind]. exact H'.
    - split; auto. intro r. unfold prior_call. cbn.
      assert (forall ns, posk_loop false idx v ns = Ok (Fin r) -> posk_loop true idx v ns = Ok (Fin r)) as Q; [|apply Q].
      induction ns as [|n ns IH]; intro H'; cbn in *; auto. destruct (k_of idx v n); [|discriminate]. cbn [bind] in *.
      destruct (rltb _ 0); [discriminate|auto].
  Qed.

  (** log density of the priors that are sampled through their transform *)
  Definition sampled (p : prior) : bool := match prior_param p with Some _ => transformable p | None => false end.

  Lemma ns_factor ps v v' l rs : (forall p, In p ps -> splittable v p) ->
    Forall2 (fun p r => prior_call pb idx v p = Ok (Fin r)) ps rs -> lik v = (v', Ok l) ->
    exists ts n, Forall2 (fun p r => prior_call pb idx v p = Ok (Fin r)) (filter sampled ps) ts /\
      ns_loglike pb idx lik ps v = (v', Ok n) /\
      post_logprob pb idx lik ps v = (v', Ok (ext_add n (Fin (rsum ts)))).
  Proof.
    intros HS HF HL.
    assert (exists ts es, Forall2 (fun p r => prior_call pb idx v p = Ok (Fin r)) (filter sampled ps) ts /\
              Forall2 (fun p r => prior_call_finite pb idx v p = Ok (Fin r)) (filter prior_extra ps) es /\
              rsum rs = rsum es + rsum ts) as (ts & es & A & B & C).
    { clear HL. induction HF as [|p r ps rs Hp HF IH].
      - exists [], []. cbn. repeat split; try constructor. ring.
      - destruct IH as (ts & es & A & B & C); [auto with datatypes|].
        pose proof (HS p (or_introl eq_refl)) as S. unfold splittable in S. cbn [filter]. unfold sampled at 1, transformable.
        destruct (prior_extra p) eqn:X.
        + destruct S as [S1 S2]. exists ts, (r :: es). replace (match prior_param p with Some _ => negb true | None => false end) with false by (destruct (prior_param p); reflexivity).
          split; auto. split; [constructor; auto; unfold prior_call_finite; rewrite S1; auto|]. rewrite !rsum_cons, C. ring.
        + destruct S as [s S]. rewrite S. exists (r :: ts), es. cbn [negb]. split; [constructor; auto|]. split; auto.
          rewrite !rsum_cons, C. ring. }
    exists ts, (ext_add (Fin (rsum es)) l). split; auto. split.
    - unfold ns_loglike, extra_likelihood. rewrite (sum_priors_ok _ _ (map Fin es)).
      + pose proof (ext_sum_fin es) as Q. unfold ext_sum in Q. rewrite Q, HL. reflexivity.
      + clear -B. induction B; cbn; constructor; auto.
    - rewrite (post_sum pb idx lik ps v rs v' l HF HL). do 2 f_equal. rewrite C.
      destruct l; cbn; auto. f_equal. ring.
  Qed.

  (** the constraints always contribute a finite number *)
  Lemma ns_finite ps v v' l es : Forall2 (fun p r => prior_call_finite pb idx v p = Ok (Fin r)) (filter prior_extra ps) es ->
    lik v = (v', Ok (Fin l)) -> ns_loglike pb idx lik ps v = (v', Ok (Fin (rsum es + l))).
  Proof.
    intros B HL. unfold ns_loglike, extra_likelihood. rewrite (sum_priors_ok _ _ (map Fin es)).
    - pose proof (ext_sum_fin es) as Q. unfold ext_sum in Q. rewrite Q, HL. reflexivity.
    - clear -B. induction B; cbn; constructor; auto.
  Qed.
End NS.
