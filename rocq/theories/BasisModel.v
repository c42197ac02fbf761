(** C12: models built from converted parameter sets. *)
From Coq Require Import Reals String Arith Bool Lia List.
From Verif Require Import Py PyFacts Params ParamsProofs ParamsSpec VectorProofs Kepler Basis BasisNum BasisProofs BasisConv VConv.
Import ListNotations.
Open Scope string_scope.
#[local] Arguments unkey : simpl never.
#[local] Arguments key : simpl never.

(** ** Column-wise equality of one planet's entries *)
Definition ceq (d d' : dict param) : Prop := forall j, colf j d = colf j d'.

Lemma colf_dset j d p q : colf j (dset d p q) = if Nat.eqb (column p) j then dset (colf j d) p q else colf j d.
Proof.
  unfold colf. induction d as [|[a b] r IH]; cbn [dset filter fst].
  - destruct (Nat.eqb (column p) j); reflexivity.
  - destruct (String.eqb_spec p a) as [<-|N].
    + cbn [filter fst]. destruct (Nat.eqb (column p) j); auto. cbn [dset]. now rewrite String.eqb_refl.
    + cbn [filter fst]. rewrite IH. destruct (Nat.eqb (column a) j), (Nat.eqb (column p) j); auto.
      cbn [dset]. destruct (String.eqb_spec p a); congruence.
Qed.

Lemma colf_dremove j d p : colf j (dremove d p) = if Nat.eqb (column p) j then dremove (colf j d) p else colf j d.
Proof.
  unfold colf. induction d as [|[a b] r IH]; cbn [dremove filter fst].
  - destruct (Nat.eqb (column p) j); reflexivity.
  - destruct (String.eqb_spec p a) as [<-|N].
    + destruct (Nat.eqb (column p) j); auto. cbn [dremove]. now rewrite String.eqb_refl.
    + cbn [filter fst]. rewrite IH. destruct (Nat.eqb (column a) j), (Nat.eqb (column p) j); auto.
      cbn [dremove]. destruct (String.eqb_spec p a); congruence.
Qed.

Lemma colf_dupdate j d d2 : colf j (dupdate d d2) = dupdate (colf j d) (colf j d2).
Proof.
  unfold dupdate. revert d. induction d2 as [|[a b] r IH]; intro d; auto.
  cbn [fold_left fst snd]. rewrite IH, colf_dset.
  change (colf j ((a, b) :: r)) with (if Nat.eqb (column a) j then (a, b) :: colf j r else colf j r).
  destruct (Nat.eqb (column a) j); reflexivity.
Qed.

Lemma dget_colf d p : dget d p = dget (colf (column p) d) p.
Proof.
  unfold colf. induction d as [|[a b] r IH]; auto. cbn [dget filter fst].
  destruct (String.eqb_spec p a) as [<-|N].
  - rewrite Nat.eqb_refl. cbn. now rewrite String.eqb_refl.
  - destruct (Nat.eqb (column a) (column p)); auto. cbn. destruct (String.eqb_spec p a); congruence.
Qed.

Lemma ceq_dget d d' p : ceq d d' -> dget d p = dget d' p.
Proof. intro H. rewrite (dget_colf d), (dget_colf d'). now rewrite H. Qed.

Lemma ceq_set1 nv s s' d d' pv : ceq s s' -> ceq d d' -> ceq (set1_to nv s d pv) (set1_to nv s' d' pv).
Proof.
  intros Hs Hd j. unfold set1_to. rewrite (ceq_dget s s') by auto. rewrite !colf_dset. now rewrite Hd.
Qed.

Lemma ceq_sets nv s s' l d d' : ceq s s' -> ceq d d' ->
  ceq (fold_left (set1_to nv s) l d) (fold_left (set1_to nv s') l d').
Proof. intro Hs. revert d d'. induction l; cbn [fold_left]; auto. intros. apply IHl. now apply ceq_set1. Qed.

Lemma ceq_dels l d d' : ceq d d' ->
  ceq (fold_left (fun x p => dremove x p) l d) (fold_left (fun x p => dremove x p) l d').
Proof.
  revert d d'. induction l; cbn [fold_left]; auto. intros d d' H. apply IHl. intro j.
  rewrite !colf_dremove. now rewrite H.
Qed.

Lemma ceq_dupdate d s s' : ceq s s' -> ceq (dupdate d s) (dupdate d s').
Proof. intros H j. rewrite !colf_dupdate. now rewrite H. Qed.

(** ** The conversion of one planet, as a function of its five entries *)
Definition tosets (f : string -> R) (l : list string) : list (string * R) := map (fun p => (p, f p)) l.

Definition conv_names (b' : string) : list string := map fst (fst (conv_sd b' (mkEl 0 0 0 0 0))).

Definition conv_names' (b' : string) : list string * list string :=
  if String.eqb b' "per tc e w k" then (["tc"; "w"], ["tp"])
  else if String.eqb b' "per tc se w k" then (["tc"; "w"; "se"], ["tp"; "e"])
  else if String.eqb b' "per tc secosw sesinw logk" then (["secosw"; "sesinw"; "logk"; "tc"], ["tp"; "e"; "w"; "k"])
  else if String.eqb b' "per tc secosw sesinw k" then (["secosw"; "sesinw"; "k"; "tc"], ["tp"; "e"; "w"])
  else if String.eqb b' "logper tc secosw sesinw k" then (["logper"; "secosw"; "sesinw"; "k"; "tc"], ["per"; "tp"; "e"; "w"])
  else if String.eqb b' "logper tc secosw sesinw logk" then (["logper"; "secosw"; "sesinw"; "logk"; "tc"], ["per"; "tp"; "e"; "w"; "k"])
  else if String.eqb b' "per tc ecosw esinw k" then (["ecosw"; "esinw"; "k"; "tc"], ["tp"; "e"; "w"])
  else if String.eqb b' "logper tp e w logk" then (["logper"; "logk"; "tc"], ["per"; "k"])
  else ([], []).

Definition conv1 (names : list string) (src : dict param) (b' : string) (f : string -> R) : dict param :=
  from_synth1 false SYNTH
    (fold_left (set1_to true src) (tosets f SYNTH)
       (dupdate (map (fun p => (p, parameter_default)) names) src))
    (tosets f (fst (conv_names' b')), snd (conv_names' b')).

Lemma conv1_eq names src b' names' el : In (b', names') FIT_BASES ->
  from_synth1 false SYNTH (to_synth1 true names src (el_tuple el)) (conv_sd b' el) = conv1 names src b' (meaning el).
Proof.
  intro HF. unfold conv1.
  assert (conv_sd b' el = (tosets (meaning el) (fst (conv_names' b')), snd (conv_names' b'))) as ->.
  { destruct el. fit_cases HF; reflexivity. }
  destruct el; reflexivity.
Qed.

Lemma ceq_conv1 names s s' b' f : ceq s s' -> ceq (conv1 names s b' f) (conv1 names s' b' f).
Proof.
  intro H. unfold conv1, from_synth1. cbn [fst snd]. apply ceq_dels. unfold set1_from.
  assert (ceq (fold_left (set1_to true s) (tosets f SYNTH) (dupdate (map (fun p => (p, parameter_default)) names) s))
              (fold_left (set1_to true s') (tosets f SYNTH) (dupdate (map (fun p => (p, parameter_default)) names) s'))) as A.
  { apply ceq_sets; auto. now apply ceq_dupdate. }
  apply ceq_sets; auto. now apply ceq_dupdate.
Qed.

(** ** The 81 cases *)
Definition vary_is_bool (pq : string * param) : bool :=
  match p_vary (snd pq) with VBool _ => true | VEmpty => false end.

Fixpoint last_key (l : dict param) : string :=
  match l with [] => "" | [(p, _)] => p | _ :: r => last_key r end.

(** usable: all flags boolean and the last entry of column j is names'_j *)
Definition usable (names' : list string) (d : dict param) : bool :=
  forallb vary_is_bool d &&
  forallb (fun j => String.eqb (last_key (colf j d)) (nth j names' "?")) [0; 1; 2; 3; 4]%nat.

Definition planet5 (names : list string) (vs : list (option R)) (bs : list bool) (ss : list (option R)) (ls : list bool)
  : dict param :=
  map (fun j => (nth j names "", mkParam (nth j vs None) (VBool (nth j bs false)) (nth j ss None) (nth j ls false)))
      [0; 1; 2; 3; 4]%nat.

Definition pair_in (b b' : string) (l : list (string * string)) : bool :=
  existsb (fun xy => String.eqb b (fst xy) && String.eqb b' (snd xy)) l.

Lemma pair_in_spec b b' l : pair_in b b' l = true <-> In (b, b') l.
Proof.
  unfold pair_in. rewrite existsb_exists. split.
  - intros ([x y] & Hin & E). cbn in E. apply andb_prop in E. destruct E as [E1 E2].
    apply String.eqb_eq in E1, E2. now subst.
  - intro H. exists (b, b'). cbn. now rewrite !String.eqb_refl.
Qed.

(** tc ends up after tp in column 1, everything else as in a usable set *)
Definition wrong_tp (names' : list string) (d : dict param) : bool :=
  forallb vary_is_bool d && String.eqb (last_key (colf 1 d)) "tc" &&
  forallb (fun j => String.eqb (last_key (colf j d)) (nth j names' "?")) [0; 2; 3; 4]%nat.

Definition classify (b b' : string) (names' : list string) (d : dict param) : bool :=
  if pair_in b b' CONVERTIBLE then usable names' d
  else if pair_in b b' WRONG_TP then wrong_tp names' d
  else negb (forallb vary_is_bool d).

Lemma classify_pair b names b' names' v0 v1 v2 v3 v4 b0 b1 b2 b3 b4 s0 s1 s2 s3 s4 l0 l1 l2 l3 l4 f :
  In (b, names) FIT_BASES -> In (b', names') FIT_BASES ->
  classify b b' names'
    (conv1 names (planet5 names [v0; v1; v2; v3; v4] [b0; b1; b2; b3; b4]
                                [s0; s1; s2; s3; s4] [l0; l1; l2; l3; l4]) b' f) = true.
Proof.
  intros HF HF'.
  assert (forallb (fun bn => forallb (fun bn' =>
     classify (fst bn) (fst bn') (snd bn')
       (conv1 (snd bn) (planet5 (snd bn) [v0; v1; v2; v3; v4] [b0; b1; b2; b3; b4]
                                [s0; s1; s2; s3; s4] [l0; l1; l2; l3; l4]) (fst bn') f)) FIT_BASES) FIT_BASES = true) as A
    by (vm_compute; reflexivity).
  rewrite forallb_forall in A. specialize (A _ HF). cbn [fst snd] in A.
  rewrite forallb_forall in A. exact (A _ HF').
Qed.

(** the entries of a planet of a strict set, column by column *)
Lemma strict_ceq h ps b names n : params_ok h ps b names -> strict ps names -> flags_ok h ps ->
  (1 <= n <= ps_num ps)%nat ->
  exists v0 v1 v2 v3 v4 b0 b1 b2 b3 b4 s0 s1 s2 s3 s4 l0 l1 l2 l3 l4,
    ceq (projv h n (ps_items ps))
        (planet5 names [v0; v1; v2; v3; v4] [b0; b1; b2; b3; b4] [s0; s1; s2; s3; s4] [l0; l1; l2; l3; l4]).
Proof.
  intros OK ST FL Hn. pose proof (po_fit _ _ _ _ OK) as HF.
  assert (forall j, (j < 5)%nat -> exists v bb s l,
     colf j (projv h n (ps_items ps)) = [(nth j names "", mkParam v (VBool bb) s l)]) as A.
  { intros j Hj. assert (j < length names)%nat as Hj' by (rewrite (fit_length b names HF); lia).
    destruct (nth_error names j) as [p|] eqn:Ep; [|apply nth_error_None in Ep; lia].
    destruct (colf_strict h ps b names n j p OK ST Hn Ep) as (q & Hq & HC).
    rewrite (nth_error_nth names j "" Ep).
    destruct (FL (key p n)) as (q' & bb & Hq' & Hbb).
    { eapply (po_has _ _ _ _ OK); eauto. eapply nth_error_In; eauto. }
    rewrite Hq in Hq'. inversion Hq'; subst q'. destruct q as [v vr s l]. cbn in Hbb. subst vr. eauto. }
  assert (forall j, (5 <= j)%nat -> colf j (projv h n (ps_items ps)) = []) as B.
  { intros j Hj. unfold colf. clear -Hj. induction (projv h n (ps_items ps)) as [|[a c] r IH]; auto.
    cbn [filter fst]. pose proof (column_lt a). destruct (Nat.eqb_spec (column a) j); [lia|auto]. }
  destruct (A 0%nat) as (v0 & b0 & s0 & l0 & E0); [lia|]. destruct (A 1%nat) as (v1 & b1 & s1 & l1 & E1); [lia|].
  destruct (A 2%nat) as (v2 & b2 & s2 & l2 & E2); [lia|]. destruct (A 3%nat) as (v3 & b3 & s3 & l3 & E3); [lia|].
  destruct (A 4%nat) as (v4 & b4 & s4 & l4 & E4); [lia|].
  exists v0, v1, v2, v3, v4, b0, b1, b2, b3, b4, s0, s1, s2, s3, s4, l0, l1, l2, l3, l4.
  intro j. destruct (Nat.lt_ge_cases j 5) as [Hj|Hj].
  - do 5 (destruct j as [|j]; [first [rewrite E0|rewrite E1|rewrite E2|rewrite E3|rewrite E4];
      clear -HF; fit_cases HF; reflexivity|]). lia.
  - rewrite B by auto. symmetry. clear -Hj HF.
    unfold colf, planet5. cbn [map filter fst nth].
    repeat match goal with |- context [Nat.eqb (column ?a) j] =>
      pose proof (column_lt a); destruct (Nat.eqb_spec (column a) j); [lia|] end. reflexivity.
Qed.

Lemma last_key_snoc l p q : last_key (l ++ [(p, q)])%list = p.
Proof. induction l as [|[a b] r IH]; auto. cbn [app last_key]. destruct r; cbn in *; auto. Qed.

Lemma last_key_inv l p : last_key l = p -> p <> "" -> exists r q, l = (r ++ [(p, q)])%list.
Proof.
  destruct l as [|[a b] r] using rev_ind; [cbn; congruence|]. rewrite last_key_snoc. intros <- _. eauto.
Qed.

Lemma in_colf j d pq : In pq (colf j d) <-> In pq d /\ column (fst pq) = j.
Proof. unfold colf. rewrite filter_In, Nat.eqb_eq. reflexivity. Qed.

Lemma ceq_in d d' pq : ceq d d' -> In pq d -> In pq d'.
Proof.
  intros H Hin. assert (In pq (colf (column (fst pq)) d)) as A by (apply in_colf; auto).
  rewrite H in A. now apply in_colf in A.
Qed.

Lemma ceq_sym d d' : ceq d d' -> ceq d' d.
Proof. intros H j. now rewrite H. Qed.

Lemma ceq_forallb f d d' : ceq d d' -> forallb f d = forallb f d'.
Proof.
  intro H. destruct (forallb f d) eqn:E, (forallb f d') eqn:E'; auto.
  - rewrite forallb_forall in E. assert (forallb f d' = true); [|congruence].
    apply forallb_forall. intros. apply E. eapply ceq_in; eauto. now apply ceq_sym.
  - rewrite forallb_forall in E'. assert (forallb f d = true); [|congruence].
    apply forallb_forall. intros. apply E'. eapply ceq_in; eauto.
Qed.

Lemma classify_ceq b b' names' d d' : ceq d d' -> classify b b' names' d = classify b b' names' d'.
Proof.
  intro H. unfold classify, usable, wrong_tp. rewrite (ceq_forallb _ _ _ H). cbn [forallb]. now rewrite !H.
Qed.

(** a conversion result, planet by planet *)
Lemma convert_class h ps b names b' names' (val : nat -> string -> R) E :
  params_ok h ps b names -> strict ps names -> flags_ok h ps -> In (b', names') FIT_BASES ->
  (forall n, (1 <= n <= ps_num ps)%nat -> holds h ps names n (val n)) ->
  (forall n, (1 <= n <= ps_num ps)%nat -> synth_of b (fun p => Ok (val n p)) = Ok (el_tuple (E n))) ->
  exists h' out, convert h ps b' = Ok (h', caller_after ps b', Some out) /\
    params_ok h' out b' names' /\ ps_num out = ps_num ps /\
    (forall n, (1 <= n <= ps_num ps)%nat -> holds h' out names' n (meaning (E n))) /\
    (forall n, (1 <= n <= ps_num ps)%nat -> classify b b' names' (projv h' n (ps_items out)) = true) /\
    (forall n, (1 <= n <= ps_num ps)%nat -> In (b, b') WRONG_TP -> value_at h' out (key "tc" n) = Some (meaning (E n) "tc")) /\
    (forall k, non_orbital (ps_num ps) k -> In k (dkeys (ps_items out)) -> storable h' (ps_items out) k).
Proof.
  intros OK ST FL HF' HV HS.
  destruct (convert_main h ps b names b' names' val E OK HF' HV HS)
    as (h' & out & A1 & A2 & [t A3] & A4 & A5 & A6 & A7 & A8 & A9).
  assert (forall n, (1 <= n <= ps_num ps)%nat -> projv h' n (ps_items out) = conv1 names (projv h n (ps_items ps)) b' (meaning (E n))) as A10.
  { intros n Hn. rewrite A9 by auto. eapply conv1_eq; eauto. }
  exists h', out. split; auto. split; auto. split; auto. split; auto. split; [|split].
  - intros n Hn. rewrite A10 by auto.
    destruct (strict_ceq h ps b names n OK ST FL Hn)
      as (v0 & v1 & v2 & v3 & v4 & b0 & b1 & b2 & b3 & b4 & s0 & s1 & s2 & s3 & s4 & l0 & l1 & l2 & l3 & l4 & HC).
    rewrite (classify_ceq _ _ _ _ _ (ceq_conv1 names _ _ b' (meaning (E n)) HC)).
    apply classify_pair; auto. apply (po_fit _ _ _ _ OK).
  - intros n Hn HW. apply proj_value; [exact (po_locs _ _ _ _ A2)|cbn; tauto|].
    rewrite A10 by auto.
    assert (b' = "logper tp e w logk") as -> by (cbn in HW; destruct HW as [HW|[HW|[]]]; now inversion HW).
    unfold conv1, from_synth1. cbn [fst snd]. rewrite dget_dremoves by (cbn; intuition discriminate).
    change (conv_names' "logper tp e w logk") with (["logper"; "logk"; "tc"], ["per"; "k"]).
    unfold tosets. cbn [fst snd map fold_left]. unfold set1_from.
    rewrite !pval_set1. cbn [fst snd]. reflexivity.
  - intros k Hk Hin. apply dget_some_key in Hin. destruct Hin as [l El].
    pose proof El as El'. rewrite A8 in El by auto.
    destruct (FL k) as (q & bb & Hq & Hb). { eapply dget_key; eauto. }
    exists q, bb. split; auto. unfold get_param in *. rewrite El'. rewrite El in Hq.
    rewrite A3. rewrite nth_error_app1; auto. apply nth_error_Some. congruence.
Qed.

Lemma planet_or_not num k : (exists n p, (1 <= n <= num)%nat /\ In p PNAMES /\ k = key p n) \/ non_orbital num k.
Proof.
  destruct (existsb (fun n => existsb (fun p => String.eqb k (key p n)) PNAMES) (seq 1 num)) eqn:E.
  - left. apply existsb_exists in E. destruct E as (n & Hn & E). apply existsb_exists in E.
    destruct E as (p & Hp & E). apply String.eqb_eq in E. apply in_seq in Hn. exists n, p. repeat split; auto; lia.
  - right. intros n p Hn Hp ->.
    assert (existsb (fun n0 => existsb (fun p0 => String.eqb (key p n) (key p0 n0)) PNAMES) (seq 1 num) = true) as B; [|congruence].
    apply existsb_exists. exists n. split; [apply in_seq; lia|]. apply existsb_exists. exists p. split; auto. apply String.eqb_refl.
Qed.

Lemma flags_storable h ps num :
  (forall n pq, (1 <= n <= num)%nat -> In pq (projv h n (ps_items ps)) -> vary_is_bool pq = true) ->
  locs_ok h (ps_items ps) ->
  (forall k, non_orbital num k -> In k (dkeys (ps_items ps)) -> storable h (ps_items ps) k) ->
  forall k, In k (dkeys (ps_items ps)) -> storable h (ps_items ps) k.
Proof.
  intros H HL HO k Hk. destruct (planet_or_not num k) as [(n & p & Hn & Hp & ->)|Hno]; auto.
  pose proof Hk as Hk'. apply dget_some_key in Hk. destruct Hk as [l El].
  pose proof (projv_get h n (ps_items ps) p HL Hp) as G. unfold get_param in G. rewrite El in G.
  destruct (nth_error h l) as [q|] eqn:Eq.
  2:{ apply nth_error_None in Eq. apply dget_in in El. apply HL in El. lia. }
  apply dget_in in G. specialize (H n _ Hn G). unfold vary_is_bool in H. cbn in H.
  destruct (p_vary q) as [bb|] eqn:Ev; [|discriminate]. exists q, bb. unfold get_param. rewrite El. auto.
Qed.

(** the vector of a strict set *)
Lemma strict_vector h ps b names (val : nat -> string -> R) :
  params_ok h ps b names -> strict ps names -> flags_ok h ps ->
  (forall n, (1 <= n <= ps_num ps)%nat -> holds h ps names n (val n)) ->
  exists vec, vector_init h ps = Ok vec /\
    forall n, (n < ps_num ps)%nat -> five (v_vector vec) (5 * n) (fun j => val (S n) (nth j names "")).
Proof.
  intros OK ST FL HV.
  destruct (vector_rows h ps b names OK FL) as (vec & E & HR).
  exists vec. split; auto. intros n Hn j Hj.
  pose proof (po_fit _ _ _ _ OK) as HF.
  destruct (nth_error names j) as [p|] eqn:Ep.
  2:{ apply nth_error_None in Ep. rewrite (fit_length b names HF) in Ep. lia. }
  rewrite (nth_error_nth names j "" Ep).
  destruct (colf_strict h ps b names (S n) j p OK ST ltac:(lia) Ep) as (q & Hq & HC).
  assert (In p names) as Hp by (eapply nth_error_In; eauto).
  specialize (HR (S n) j [] p q ltac:(lia) Hj (fit_pnames b names p HF Hp) HC).
  replace (S n - 1)%nat with n in HR by lia. unfold rowval. rewrite HR. unfold row_at. rewrite Hq.
  specialize (HV (S n) ltac:(lia) p Hp). unfold value_at in HV. now rewrite Hq in HV.
Qed.

(** values of a usable set *)
Lemma usable_vector h ps b names (val : nat -> string -> R) :
  params_ok h ps b names ->
  (forall k, non_orbital (ps_num ps) k -> In k (dkeys (ps_items ps)) -> storable h (ps_items ps) k) ->
  (forall n, (1 <= n <= ps_num ps)%nat -> forallb vary_is_bool (projv h n (ps_items ps)) = true) ->
  exists vec, vector_init h ps = Ok vec /\
    forall n j p v, (n < ps_num ps)%nat -> (j < 5)%nat ->
      last_key (colf j (projv h (S n) (ps_items ps))) = p -> In p PNAMES ->
      value_at h ps (key p (S n)) = Some v ->
      rowval (v_vector vec) (j + 5 * n) = Some v.
Proof.
  intros OK HO HU.
  assert (forall k, In k (dkeys (ps_items ps)) -> storable h (ps_items ps) k) as ALL.
  { apply flags_storable with (num := ps_num ps); auto; [|exact (po_locs _ _ _ _ OK)].
    intros n pq Hn Hin. specialize (HU n Hn). rewrite forallb_forall in HU. auto. }
  destruct (vector_rows h ps b names OK ALL) as (vec & E & HR).
  exists vec. split; auto. intros n j p v Hn Hj HL Hp HV.
  apply last_key_inv in HL; [|intros ->; clear -Hp; cbn in Hp; intuition discriminate].
  destruct HL as (r & q & HC).
  specialize (HR (S n) j r p q ltac:(lia) Hj Hp HC).
  replace (S n - 1)%nat with n in HR by lia. unfold rowval. rewrite HR. unfold row_at.
  unfold value_at in HV. destruct (get_param h (ps_items ps) (key p (S n))); [|discriminate]. exact HV.
Qed.
