(** Facts about parameter keys, the index dictionary and the vector. *)
From Coq Require Import Decimal DecimalString DecimalNat.
From Coq Require Import Reals String Ascii Arith Bool Lia List.
From Verif Require Import Py PyFacts Params.
Import ListNotations.
Open Scope string_scope.

(** ** Keys *)

Definition is_digit (c : ascii) : bool :=
  (Nat.leb 48 (nat_of_ascii c) && Nat.leb (nat_of_ascii c) 57)%nat.

Fixpoint no_digit (s : string) : bool :=
  match s with EmptyString => true | String c r => negb (is_digit c) && no_digit r end.

Fixpoint upto_digit (s : string) : string :=
  match s with
  | EmptyString => EmptyString
  | String c r => if is_digit c then EmptyString else String c (upto_digit r)
  end.

Lemma upto_digit_app p c r : no_digit p = true -> is_digit c = true ->
  upto_digit (p ++ String c r) = p.
Proof.
  intros Hp Hc. induction p as [|a p IH]; cbn in *.
  - now rewrite Hc.
  - apply andb_true_iff in Hp. destruct Hp as [Ha Hp]. apply negb_true_iff in Ha.
    rewrite Ha. now rewrite IH.
Qed.

Lemma upto_digit_id p : no_digit p = true -> upto_digit p = p.
Proof.
  induction p as [|a p IH]; cbn; auto. intro H.
  apply andb_true_iff in H. destruct H as [Ha Hp]. apply negb_true_iff in Ha.
  rewrite Ha. now rewrite IH.
Qed.

Lemma str_nat_digit n : exists c r, str_nat n = String c r /\ is_digit c = true.
Proof.
  unfold str_nat. pose proof (Unsigned.to_of (Nat.to_uint n)) as H.
  rewrite Unsigned.of_to in H.
  destruct (Nat.to_uint n); [discriminate|..]; cbn; eauto.
Qed.

Lemma str_nat_inj n m : str_nat n = str_nat m -> n = m.
Proof.
  unfold str_nat. intro H.
  assert (Nat.to_uint n = Nat.to_uint m) as E.
  { pose proof (NilEmpty.usu (Nat.to_uint n)) as A. rewrite H in A.
    rewrite NilEmpty.usu in A. congruence. }
  rewrite <- (Unsigned.of_to n), <- (Unsigned.of_to m). now rewrite E.
Qed.

Lemma append_inv_l p a b : p ++ a = p ++ b -> a = b.
Proof. induction p; cbn; auto. intro H; inversion H; auto. Qed.

Lemma upto_digit_key p n : no_digit p = true -> upto_digit (key p n) = p.
Proof.
  intro H. unfold key. destruct (str_nat_digit n) as (c & r & -> & Hc).
  now apply upto_digit_app.
Qed.

Lemma key_inj p q n m : no_digit p = true -> no_digit q = true ->
  key p n = key q m -> p = q /\ n = m.
Proof.
  intros Hp Hq H.
  assert (p = q) as ->.
  { rewrite <- (upto_digit_key p n Hp), <- (upto_digit_key q m Hq). now rewrite H. }
  split; auto. apply str_nat_inj. now apply append_inv_l with q.
Qed.

Lemma key_not_plain p n s : no_digit p = true -> no_digit s = true -> key p n <> s.
Proof.
  intros Hp Hs H. assert (p = s) as ->.
  { rewrite <- (upto_digit_key p n Hp), <- (upto_digit_id s Hs). now rewrite H. }
  destruct (str_nat_digit n) as (c & r & E & _). unfold key in H. rewrite E in H.
  clear -H. assert (String.length (s ++ String c r) = String.length s) as L by now rewrite H.
  clear H. induction s as [|a s IH]; cbn in *; [discriminate|]. injection L as L. auto.
Qed.

Lemma key_eqb p q n m : no_digit p = true -> no_digit q = true ->
  String.eqb (key p n) (key q m) = (String.eqb p q && Nat.eqb n m)%bool.
Proof.
  intros Hp Hq. destruct (String.eqb_spec (key p n) (key q m)) as [E|E].
  - destruct (key_inj p q n m Hp Hq E) as [-> ->].
    now rewrite String.eqb_refl, Nat.eqb_refl.
  - symmetry. apply andb_false_iff. destruct (String.eqb_spec p q); auto.
    destruct (Nat.eqb_spec n m); auto. subst. congruence.
Qed.

(** The thirteen orbital parameter names (model.py:202-207). *)
Definition PNAMES : list string :=
  ["per"; "logper"; "tc"; "tp"; "secosw"; "ecosw"; "e"; "se"; "sesinw"; "esinw"; "w"; "k"; "logk"].

(** row within a planet's block of five *)
Definition column (p : string) : nat :=
  if existsb (String.eqb p) ["per"; "logper"] then 0
  else if existsb (String.eqb p) ["tc"; "tp"] then 1
  else if existsb (String.eqb p) ["secosw"; "ecosw"; "e"; "se"] then 2
  else if existsb (String.eqb p) ["sesinw"; "esinw"; "w"] then 3
  else 4.

Lemma pnames_no_digit p : In p PNAMES -> no_digit p = true.
Proof. cbn. intuition subst; reflexivity. Qed.

Lemma pnames_not_extra p n : In p PNAMES -> is_extra (key p n) = false.
Proof. cbn. intuition subst; reflexivity. Qed.

Lemma column_lt p : (column p < 5)%nat.
Proof.
  unfold column. repeat match goal with |- context [if ?b then _ else _] => destruct b end; lia.
Qed.

Ltac pnd := first [reflexivity | apply pnames_no_digit; assumption].

(** planet number of a key, if any *)
Definition unkey (n : nat) (k : string) : option string :=
  find (fun p => String.eqb k (key p n)) PNAMES.

Lemma unkey_some n k p : unkey n k = Some p -> k = key p n /\ In p PNAMES.
Proof.
  unfold unkey. intro H. apply find_some in H. destruct H as [H1 H2].
  apply String.eqb_eq in H2. auto.
Qed.

Lemma unkey_key n p : In p PNAMES -> unkey n (key p n) = Some p.
Proof.
  intro H. unfold unkey. destruct (find _ PNAMES) as [q|] eqn:E.
  - apply find_some in E. destruct E as [Hq E]. apply String.eqb_eq in E.
    apply key_inj in E; try pnd. now destruct E as [-> _].
  - exfalso. apply (find_none _ _ E) in H. rewrite String.eqb_refl in H. discriminate.
Qed.

Lemma unkey_other n m p : In p PNAMES -> n <> m -> unkey n (key p m) = None.
Proof.
  intros H Hn. destruct (unkey n (key p m)) as [q|] eqn:E; auto.
  apply unkey_some in E. destruct E as [E Hq]. apply key_inj in E; try pnd. lia.
Qed.

Lemma unkey_none n k : unkey n k = None <-> forall p, In p PNAMES -> k <> key p n.
Proof.
  split.
  - intros H p Hp E. subst. rewrite unkey_key in H; auto. discriminate.
  - intro H. destruct (unkey n k) as [p|] eqn:E; auto.
    apply unkey_some in E. destruct E as [E Hp]. exfalso. now apply (H p Hp).
Qed.

(** ** The index dictionary *)

Lemma planet_indices_get n p : (1 <= n)%nat -> In p PNAMES ->
  dget (planet_indices n) (key p n) = Some (5 * (n - 1) + column p)%nat.
Proof.
  intros Hn Hp. unfold planet_indices. cbn [dget].
  rewrite !key_eqb by pnd. rewrite Nat.eqb_refl.
  cbn in Hp. intuition (subst p; cbn -[Nat.mul]; f_equal; lia).
Qed.

Lemma planet_indices_keys n k : In k (dkeys (planet_indices n)) -> exists p, In p PNAMES /\ k = key p n.
Proof.
  intro H. unfold dkeys, planet_indices in H. cbn [map fst In] in H.
  repeat (destruct H as [H|H]; [subst k; eexists; split; [|reflexivity]; cbn; tauto|]).
  destruct H.
Qed.

Lemma planet_indices_wf n : wf_dict (planet_indices n).
Proof.
  unfold wf_dict. change (dkeys (planet_indices n)) with (map (fun p => key p n) PNAMES).
  assert (forall l, NoDup l -> (forall p, In p l -> no_digit p = true) ->
                    NoDup (map (fun p => key p n) l)) as A.
  { induction l as [|a l IH]; cbn; intros HN HD; constructor; inversion HN; subst.
    - intro Hin. apply in_map_iff in Hin. destruct Hin as (b & E & Hb).
      apply key_inj in E; auto. destruct E as [-> _]. contradiction.
    - apply IH; auto. }
  apply A; [|intros; now apply pnames_no_digit].
  unfold PNAMES. repeat constructor; cbn; intuition discriminate.
Qed.

Lemma planets_fold_get ns d n p : In p PNAMES -> (1 <= n)%nat -> In n ns ->
  dget (fold_left (fun d n => dupdate d (planet_indices n)) ns d) (key p n)
  = Some (5 * (n - 1) + column p)%nat.
Proof.
  intros Hp Hn. revert d. induction ns as [|m ns IH] using rev_ind; [easy|].
  intros d Hin. rewrite fold_left_app. cbn [fold_left].
  destruct (Nat.eq_dec n m) as [->|Hnm].
  - apply dget_dupdate_in; [apply planet_indices_wf|]. now apply planet_indices_get.
  - rewrite dget_dupdate_notin.
    + apply IH. apply in_app_or in Hin. cbn in Hin. intuition congruence.
    + intro H. apply planet_indices_keys in H. destruct H as (q & Hq & E).
      apply key_inj in E; try pnd. lia.
Qed.

Lemma planets_fold_get_other ns d k :
  (forall n p, In n ns -> In p PNAMES -> k <> key p n) ->
  dget (fold_left (fun d n => dupdate d (planet_indices n)) ns d) k = dget d k.
Proof.
  revert d. induction ns as [|m ns IH]; [reflexivity|]. intros d H. cbn [fold_left].
  rewrite IH by (intros; apply H; auto; now right). apply dget_dupdate_notin.
  intro Hin. apply planet_indices_keys in Hin. destruct Hin as (p & Hp & E).
  apply (H m p); auto. now left.
Qed.

Lemma index_planet num keys n p : In p PNAMES -> (1 <= n <= num)%nat ->
  dget (init_index_dict num keys) (key p n) = Some (5 * (n - 1) + column p)%nat.
Proof.
  intros Hp Hn. unfold init_index_dict. rewrite dget_dupdate_notin.
  - apply planets_fold_get; auto; [lia|]. apply in_seq. lia.
  - cbn [dkeys map fst In]. intros [H|[H|[]]]; symmetry in H; revert H; apply key_not_plain; pnd.
Qed.

Lemma index_dvdt num keys : dget (init_index_dict num keys) "dvdt" = Some (5 * num)%nat.
Proof.
  unfold init_index_dict. apply dget_dupdate_in; [|reflexivity].
  unfold wf_dict. repeat constructor; cbn; intuition discriminate.
Qed.

Lemma index_curv num keys : dget (init_index_dict num keys) "curv" = Some (1 + 5 * num)%nat.
Proof.
  unfold init_index_dict. apply dget_dupdate_in; [|reflexivity].
  unfold wf_dict. repeat constructor; cbn; intuition discriminate.
Qed.

(** position of a key among the instrument/GP keys *)
Fixpoint rank (k : string) (l : list string) : nat :=
  match l with [] => 0 | x :: r => if String.eqb k x then 0 else S (rank k r) end.

Lemma rank_nth k l : In k l -> nth_error l (rank k l) = Some k.
Proof.
  induction l as [|x r IH]; cbn; [easy|]. destruct (String.eqb_spec k x).
  - now subst.
  - intros [H|H]; [congruence|]. cbn. auto.
Qed.

Lemma rank_lt k l : In k l -> (rank k l < length l)%nat.
Proof. intro H. apply nth_error_Some. rewrite rank_nth; auto. discriminate. Qed.

Lemma rank_inj k k' l : In k l -> In k' l -> rank k l = rank k' l -> k = k'.
Proof. intros H H' E. apply rank_nth in H, H'. rewrite E in H. congruence. Qed.

Lemma extra_get_notin num c keys d k : ~ In k (filter is_extra keys) ->
  dget (extra_indices num c keys d) k = dget d k.
Proof.
  revert c d. induction keys as [|x r IH]; cbn; auto. intros c d H.
  destruct (is_extra x) eqn:E; cbn in H.
  - rewrite IH by tauto. apply dget_dset_other. intuition.
  - apply IH. auto.
Qed.

Lemma extra_get num c keys d k : NoDup keys -> In k (filter is_extra keys) ->
  dget (extra_indices num c keys d) k = Some (2 + (c + rank k (filter is_extra keys)) + 5 * num)%nat.
Proof.
  revert c d. induction keys as [|x r IH]; cbn; [easy|]. intros c d ND H.
  inversion ND; subst. destruct (is_extra x) eqn:E; cbn in H |- *.
  - destruct (String.eqb_spec k x).
    + subst. rewrite extra_get_notin.
      * rewrite dget_dset_same. f_equal. lia.
      * intro Hin. apply filter_In in Hin. tauto.
    + destruct H as [H|H]; [congruence|]. rewrite IH; auto. f_equal. lia.
  - rewrite IH; auto.
Qed.

Lemma extra_not_planet k n p : is_extra k = true -> In p PNAMES -> k <> key p n.
Proof. intros H Hp E. subst. rewrite pnames_not_extra in H; auto. discriminate. Qed.

Lemma index_extra num keys k : NoDup keys -> In k keys -> is_extra k = true ->
  dget (init_index_dict num keys) k = Some (5 * num + 2 + rank k (filter is_extra keys))%nat.
Proof.
  intros ND Hin He. unfold init_index_dict. rewrite dget_dupdate_notin.
  - rewrite planets_fold_get_other.
    + rewrite extra_get; auto; [f_equal; lia|]. apply filter_In; auto.
    + intros n p _ Hp. now apply extra_not_planet.
  - cbn [dkeys map fst In]. intros [H|[H|[]]]; subst k; discriminate.
Qed.

Lemma index_none num keys k :
  (is_extra k = false \/ ~ In k keys) -> k <> "dvdt" -> k <> "curv" ->
  (forall n p, (1 <= n <= num)%nat -> In p PNAMES -> k <> key p n) ->
  dget (init_index_dict num keys) k = None.
Proof.
  intros He H1 H2 H3. unfold init_index_dict. rewrite dget_dupdate_notin.
  - rewrite planets_fold_get_other.
    + rewrite extra_get_notin; auto. intro H. apply filter_In in H. intuition congruence.
    + intros n p Hn Hp. apply H3; auto. apply in_seq in Hn. lia.
  - cbn. intuition.
Qed.

(** Case analysis on a key of the index dictionary. *)
Inductive index_case (num : nat) (keys : list string) : string -> nat -> Prop :=
| ic_planet n p : (1 <= n <= num)%nat -> In p PNAMES ->
    index_case num keys (key p n) (5 * (n - 1) + column p)
| ic_dvdt : index_case num keys "dvdt" (5 * num)
| ic_curv : index_case num keys "curv" (5 * num + 1)
| ic_extra k : is_extra k = true -> In k keys ->
    index_case num keys k (5 * num + 2 + rank k (filter is_extra keys)).

Lemma index_inv num keys k i : NoDup keys ->
  dget (init_index_dict num keys) k = Some i -> index_case num keys k i.
Proof.
  intros ND H.
  destruct (String.eqb_spec k "dvdt") as [->|H1].
  { rewrite index_dvdt in H. inversion H; subst. constructor. }
  destruct (String.eqb_spec k "curv") as [->|H2].
  { rewrite index_curv in H. assert (i = (5 * num + 1)%nat) as -> by (inversion H; lia).
    constructor. }
  destruct (existsb (fun n => existsb (fun p => String.eqb k (key p n)) PNAMES) (seq 1 num)) eqn:E.
  { apply existsb_exists in E. destruct E as (n & Hn & E).
    apply existsb_exists in E. destruct E as (p & Hp & E). apply String.eqb_eq in E. subst k.
    apply in_seq in Hn. rewrite index_planet in H by (auto; lia). inversion H; subst.
    constructor; auto. lia. }
  assert (forall n p, (1 <= n <= num)%nat -> In p PNAMES -> k <> key p n) as H3.
  { intros n p Hn Hp EE. subst k.
    assert (existsb (fun n0 => existsb (fun p0 => String.eqb (key p n) (key p0 n0)) PNAMES)
                    (seq 1 num) = true) as C.
    { apply existsb_exists. exists n. split; [apply in_seq; lia|].
      apply existsb_exists. exists p. split; auto. apply String.eqb_refl. }
    congruence. }
  destruct (is_extra k) eqn:Ee; [destruct (in_dec string_dec k keys) as [Hk|Hk]|].
  - rewrite index_extra in H; auto. inversion H; subst. now constructor.
  - rewrite index_none in H; auto. discriminate.
  - rewrite index_none in H; auto. discriminate.
Qed.

(** ** list_upd *)
Lemma length_list_upd {A} (l : list A) i x : length (list_upd l i x) = length l.
Proof. revert i. induction l; destruct i; cbn; auto. Qed.

Lemma nth_list_upd_same {A} (l : list A) i x : (i < length l)%nat ->
  nth_error (list_upd l i x) i = Some x.
Proof. revert i. induction l; destruct i; cbn; intros; try lia; auto. apply IHl. lia. Qed.

Lemma nth_list_upd_other {A} (l : list A) i j x : i <> j ->
  nth_error (list_upd l i x) j = nth_error l j.
Proof. revert i j. induction l; destruct i, j; cbn; intros; try lia; auto. Qed.

Lemma list_upd_same {A} (l : list A) i x : nth_error l i = Some x -> list_upd l i x = l.
Proof.
  revert i. induction l; destruct i; cbn; intros; auto; try congruence. f_equal; auto.
Qed.

(** ** Filling an array through an index function (last writer wins) *)
Section Fill.
Context {V : Type} (ix : string -> option nat) (val : string -> V).

Definition hits (i : nat) (k : string) : bool :=
  match ix k with Some j => Nat.eqb j i | None => false end.

Definition fill_step (v : list V) (k : string) : list V :=
  match ix k with Some i => list_upd v i (val k) | None => v end.

Lemma length_fill ks v : length (fold_left fill_step ks v) = length v.
Proof.
  revert v. induction ks; cbn; auto. intro v. rewrite IHks. unfold fill_step.
  destruct (ix a); auto. apply length_list_upd.
Qed.

Lemma fill_nth ks v i : (i < length v)%nat ->
  nth_error (fold_left fill_step ks v) i =
  match find (hits i) (rev ks) with Some k => Some (val k) | None => nth_error v i end.
Proof.
  revert v. induction ks as [|k r IH] using rev_ind; intros v Hi; auto.
  rewrite fold_left_app, rev_app_distr. cbn. unfold hits, fill_step at 1.
  destruct (ix k) as [j|] eqn:E.
  - destruct (Nat.eqb_spec j i).
    + subst. apply nth_list_upd_same. now rewrite length_fill.
    + rewrite nth_list_upd_other by auto. now apply IH.
  - now apply IH.
Qed.

Lemma find_unique ks k i : NoDup ks -> In k ks -> ix k = Some i ->
  (forall k', In k' ks -> ix k' = Some i -> k' = k) ->
  find (hits i) (rev ks) = Some k.
Proof.
  intros ND Hin E U. destruct (find (hits i) (rev ks)) as [k'|] eqn:F.
  - apply find_some in F. destruct F as [F1 F2]. apply in_rev in F1.
    unfold hits in F2. destruct (ix k') as [j|] eqn:E'; [|discriminate].
    apply Nat.eqb_eq in F2. subst j. f_equal. apply U; auto.
  - exfalso. assert (hits i k = true) as C by (unfold hits; rewrite E; apply Nat.eqb_refl).
    rewrite (find_none _ _ F) in C; [discriminate|]. now apply -> in_rev.
Qed.

Lemma find_no_hit ks i : (forall k, In k ks -> ix k <> Some i) ->
  find (hits i) (rev ks) = None.
Proof.
  intro U. destruct (find (hits i) (rev ks)) as [k'|] eqn:F; auto.
  apply find_some in F. destruct F as [F1 F2]. apply in_rev in F1.
  unfold hits in F2. destruct (ix k') as [j|] eqn:E'; [|discriminate].
  apply Nat.eqb_eq in F2. subst. exfalso. now apply (U k').
Qed.

Lemma fill_in ks v k i : (i < length v)%nat -> NoDup ks -> In k ks -> ix k = Some i ->
  (forall k', In k' ks -> ix k' = Some i -> k' = k) ->
  nth_error (fold_left fill_step ks v) i = Some (val k).
Proof. intros. rewrite fill_nth; auto. now rewrite find_unique with (k := k). Qed.

Lemma fill_out ks v i : (forall k, In k ks -> ix k <> Some i) ->
  nth_error (fold_left fill_step ks v) i = nth_error v i.
Proof.
  intro U. destruct (Nat.lt_ge_cases i (length v)).
  - rewrite fill_nth; auto. now rewrite find_no_hit.
  - rewrite !(proj2 (nth_error_None _ _)); auto. now rewrite length_fill.
Qed.
End Fill.

(** ** dict_to_vector *)

(** the row written for a parameter *)
Definition row_of (p : param) : row :=
  mkRow (p_value p) (match p_vary p with VBool b => b | VEmpty => false end)
        (match p_scale p with None => Some 0%R | Some s => Some s end) (p_lin p).

Definition row_at (h : heap) (d : dict nat) (k : string) : row :=
  match get_param h d k with Some p => row_of p | None => zero_row end.

(** a parameter the code can store: it exists and its vary flag is a number *)
Definition storable (h : heap) (d : dict nat) (k : string) : Prop :=
  exists p b, get_param h d k = Some p /\ p_vary p = VBool b.

Lemma dv_fill h d idx ks v :
  (forall k i, In k ks -> dget idx k = Some i -> storable h d k /\ (i < length v)%nat) ->
  for_each ks (dv_step h d idx) v = Ok (fold_left (fill_step (dget idx) (row_at h d)) ks v).
Proof.
  revert v. induction ks as [|k r IH]; cbn; auto. intros v H.
  unfold dv_step at 1. unfold fill_step at 2. destruct (dget idx k) as [i|] eqn:E.
  - destruct (H k i) as [(p & b & Hp & Hb) Hi]; auto.
    rewrite Hp. apply Nat.ltb_lt in Hi. rewrite Hi. rewrite Hb. cbn.
    unfold row_at at 2. rewrite Hp. unfold row_of. rewrite Hb. apply IH.
    intros k' i' Hin E'. destruct (H k' i') as [S L]; auto. split; auto.
    now rewrite length_list_upd.
  - cbn. apply IH. intros. apply H; auto.
Qed.

(** the first parameter with vary = '' makes the conversion raise *)
Lemma dv_value_error h d idx ks v :
  (forall k i, In k ks -> dget idx k = Some i ->
     (exists p, get_param h d k = Some p) /\ (i < length v)%nat) ->
  (exists k i p, In k ks /\ dget idx k = Some i /\ get_param h d k = Some p /\ p_vary p = VEmpty) ->
  for_each ks (dv_step h d idx) v = Err ValueError.
Proof.
  revert v. induction ks as [|k r IH]; intros v H (k0 & i0 & p0 & Hin & E & G & Hv); [easy|].
  cbn. unfold dv_step at 1. destruct (dget idx k) as [i|] eqn:Ek.
  - destruct (H k i) as [(p & Hp) Hi]; [now left|auto|]. rewrite Hp.
    apply Nat.ltb_lt in Hi. rewrite Hi. destruct (p_vary p) eqn:Hpv; [|reflexivity].
    cbn. apply IH.
    + intros k' i' Hin' E'. destruct (H k' i') as [S L]; [now right|auto|].
      split; auto. now rewrite length_list_upd.
    + destruct Hin as [->|Hin]; [congruence|]. exists k0, i0, p0. auto.
  - cbn. apply IH.
    + intros. apply H; auto. now right.
    + destruct Hin as [->|Hin]; [congruence|]. exists k0, i0, p0. auto.
Qed.
