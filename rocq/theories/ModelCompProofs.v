(** C40: model comparison enumerates the documented models. *)
From Coq Require Import Reals String Ascii Arith Bool Lia Sorted List.
From Verif Require Import Py PyFloat PyFacts Params ParamsProofs ParamsSpec VectorProofs Basis Likelihood LikeProofs PostProofs ModelComp ModelCompSpec.
Import ListNotations.
Open Scope string_scope.
#[local] Arguments key : simpl never.

(** ** caches *)
Lemma where_free_in l : forall k i, In i (where_free k l) <-> (k <= i)%nat /\ exists r, nth_error l (i - k) = Some r /\ m_vary r = true.
Proof.
  induction l as [|r l IH]; intros k i; cbn [where_free].
  - split; [intros []|]. intros (_ & r & E & _). destruct (i - k)%nat; discriminate.
  - assert (In i (where_free (S k) l) <-> (k < i)%nat /\ exists r0, nth_error (r :: l) (i - k) = Some r0 /\ m_vary r0 = true) as Q.
    { rewrite IH. split; intros (A & r0 & B & C); (split; [lia|]); exists r0; (split; [|exact C]).
      - replace (i - k)%nat with (S (i - S k)) by lia. exact B.
      - replace (i - k)%nat with (S (i - S k)) in B by lia. exact B. }
    destruct (m_vary r) eqn:V.
    + cbn [In]. rewrite Q. split.
      * intros [<-|(A & H)]; [|split; [lia|exact H]]. split; [lia|]. rewrite Nat.sub_diag. exists r. auto.
      * intros (A & r0 & B & C). destruct (Nat.eq_dec k i) as [->|]; [now left|right]. split; [lia|eauto].
    + rewrite Q. split; intros (A & r0 & B & C); split; try lia; eauto.
      destruct (Nat.eq_dec k i) as [->|]; [|lia]. rewrite Nat.sub_diag in B. cbn in B. inversion B; subst. congruence.
Qed.
Lemma where_free_sorted l : forall k, StronglySorted lt (where_free k l).
Proof.
  induction l as [|r l IH]; intro k; cbn [where_free]; [constructor|]. destruct (m_vary r); [|apply IH]. constructor; [apply IH|].
  apply Forall_forall. intros i Hi. apply where_free_in in Hi. lia.
Qed.
Lemma relist_fresh s : fresh (relist s).
Proof.
  exists (where_free 0 (m_rows s)). split; [reflexivity|]. split; [reflexivity|]. split; [apply where_free_sorted|].
  intro i. rewrite where_free_in, Nat.sub_0_r. unfold free_row. cbn. split; [intros [_ H]; exact H|intro H; split; [lia|exact H]].
Qed.
Lemma relist_unchanged s : unchanged s (relist s).
Proof. split; [reflexivity|apply relist_fresh]. Qed.

(** ** row operations *)
Lemma changed_ext env (K K' : string -> Prop) g s c : (forall k, K k <-> K' k) -> changed env K g s c -> changed env K' g s c.
Proof.
  intros E (A & B & C). split; auto. split; [intros k i r Hk; apply B; now apply E|]. intros i H. apply C. intros k Hk. apply H. now apply E.
Qed.
Lemma changed_g env (K : string -> Prop) g g' s c : (forall k r, K k -> g k r = g' k r) -> changed env K g s c -> changed env K g' s c.
Proof. intros E (A & B & C). split; auto. split; auto. intros k i r Hk Hi Hr. rewrite (B k i r Hk Hi Hr). now rewrite E. Qed.
Lemma changed_relist env K g s c : changed env K g s c -> changed env K g s (relist c).
Proof. exact (fun H => H). Qed.

Definition sets_row (env : menv) (g : mrow -> mrow) (f : pst -> res pst) (k : string) : Prop :=
  forall c i r, dget (e_idx env) k = Some i -> nth_error (m_rows c) i = Some r ->
    f c = Ok (mkPst (list_upd (m_rows c) i (g r)) (m_cp c) (m_cl c)).

Lemma row_at_ok env c k i r : dget (e_idx env) k = Some i -> nth_error (m_rows c) i = Some r -> row_at env c k = Ok (i, r).
Proof. intros A B. unfold row_at, dget_res. rewrite A. cbn [bind]. now rewrite B. Qed.
Lemma put_val_sets env x k : sets_row env (fun r => mkM x (m_vary r)) (fun c => put_val env x c k) k.
Proof. intros c i r A B. unfold put_val. rewrite (row_at_ok _ _ _ _ _ A B). reflexivity. Qed.
Lemma put_fixed_sets env k : sets_row env (fun r => mkM (m_val r) false) (fun c => put_fixed env c k) k.
Proof. intros c i r A B. unfold put_fixed. rewrite (row_at_ok _ _ _ _ _ A B). reflexivity. Qed.
Lemma list_upd_twice {A} (l : list A) : forall i x y, list_upd (list_upd l i x) i y = list_upd l i y.
Proof. induction l as [|a l IH]; intros [|i] x y; cbn; auto. now rewrite IH. Qed.
Lemma sets_then_sets env g g' f f' k : sets_row env g f k -> sets_row env g' f' k ->
  sets_row env (fun r => g' (g r)) (fun c => do c1 <- f c; f' c1) k.
Proof.
  intros H H' c i r A B. rewrite (H c i r A B). cbn [bind]. rewrite (H' _ i (g r) A).
  - cbn [m_rows m_cp m_cl]. now rewrite list_upd_twice.
  - cbn. apply nth_upd_same. apply nth_error_Some. congruence.
Qed.
Lemma sets_same env k (f : pst -> res pst) g : sets_row env g f k -> forall g', (forall r, g r = g' r) -> sets_row env g' f k.
Proof. intros H g' E c i r A B. rewrite (H c i r A B). now rewrite E. Qed.
Lemma list_upd_id {A} (l : list A) : forall i x, nth_error l i = Some x -> list_upd l i x = l.
Proof. induction l as [|a l IH]; intros [|i] x H; cbn in *; try discriminate; [congruence|]. f_equal. auto. Qed.
Lemma ok_sets env k : sets_row env (fun r => r) (fun c => Ok c) k.
Proof. intros c i r _ B. rewrite (list_upd_id _ _ _ B). now destruct c. Qed.

(** a loop over keys with rows of their own *)
Lemma loop_changed env g (change : pst -> string -> res pst) ks : forall c,
  (forall k, In k ks -> sets_row env (g k) (fun c => change c k) k) ->
  (forall k, In k ks -> exists i, dget (e_idx env) k = Some i /\ (i < length (m_rows c))%nat) ->
  (forall k k' i, In k ks -> In k' ks -> dget (e_idx env) k = Some i -> dget (e_idx env) k' = Some i -> k = k') ->
  NoDup ks ->
  exists c', for_each ks change c = Ok c' /\ changed env (fun k => In k ks) g c c' /\ m_cp c' = m_cp c /\ m_cl c' = m_cl c.
Proof.
  induction ks as [|k ks IH]; intros c S A I ND; cbn [for_each].
  - exists c. split; auto. split; auto. split; auto. split; [intros k i r []|auto].
  - inversion ND as [|? ? N1 N2]; subst. destruct (A k (or_introl eq_refl)) as (i & Ei & Li).
    destruct (nth_error (m_rows c) i) as [r|] eqn:Er; [|apply nth_error_None in Er; lia].
    rewrite (S k (or_introl eq_refl) c i r Ei Er). cbn [bind]. set (c1 := mkPst _ _ _).
    assert (length (m_rows c1) = length (m_rows c)) as L1 by apply len_upd.
    destruct (IH c1) as (c' & E' & (C1 & C2 & C3) & P1 & P2); auto with datatypes.
    { intros k' Hk'. destruct (A k' (or_intror Hk')) as (i' & E1 & E2). exists i'. rewrite L1. auto. }
    { intros k1 k2 j H1 H2. apply I; now right. }
    exists c'. split; auto. split; [|split; [exact P1|exact P2]]. split; [congruence|]. split.
    + intros k' i' r' [<-|Hk'] Hi' Hr'.
      * rewrite Ei in Hi'. inversion Hi'; subst i'. rewrite Er in Hr'. inversion Hr'; subst r'.
        rewrite C3; [apply nth_upd_same; lia|]. intros k2 H2 E2. apply N1.
        replace k with k2; auto. apply (I k2 k i); auto; [now right|now left].
      * apply (C2 k' i'); auto. unfold c1. cbn [m_rows]. rewrite nth_upd_other; auto.
        intros ->. apply N1. replace k with k'; auto. apply (I k' k i'); auto; [now right|now left].
    + intros j Hj. rewrite C3; [|intros; apply Hj; now right]. unfold c1. cbn [m_rows]. apply nth_upd_other.
      intros ->. apply (Hj k); auto. now left.
Qed.

Lemma for_each_concat {A S} (f : S -> A -> res S) ls : forall s, for_each ls (fun s l => for_each l f s) s = for_each (concat ls) f s.
Proof.
  assert (forall l l' s, for_each (l ++ l') f s = do s1 <- for_each l f s; for_each l' f s1) as App.
  { induction l as [|a l IH]; intros l' s; cbn [for_each app bind]; auto. destruct (f s a); cbn [bind]; auto. }
  induction ls as [|l ls IH]; intro s; cbn [for_each concat]; auto. rewrite App. destruct (for_each l f s); cbn [bind]; auto.
Qed.

(** ** groups of planets *)
Lemma combinations_0 l : combinations 0 l = [[]].
Proof. destruct l; reflexivity. Qed.
Lemma combinations_spec p : forall l, StronglySorted lt l -> forall G,
  In G (combinations p l) <-> length G = p /\ StronglySorted lt G /\ incl G l.
Proof.
  induction p as [|p IHp]; intros l SL G.
  - rewrite combinations_0. cbn. split.
    + intros [<-|[]]. repeat split; [constructor|intros ? []].
    + intros (L & _). destruct G; [now left|discriminate].
  - induction SL as [|x l SL IHl F]; cbn [combinations].
    + split; [intros []|]. intros (L & _ & I). destruct G as [|g G]; [discriminate|]. destruct (I g (or_introl eq_refl)).
    + rewrite in_app_iff, IHl, in_map_iff. rewrite Forall_forall in F. split.
      * intros [(G' & <- & HG)|(L & S & I)].
        -- apply (IHp l SL) in HG. destruct HG as (L & S & I). split; [cbn; lia|]. split.
           ++ constructor; auto. apply Forall_forall. intros y Hy. apply F. auto.
           ++ intros y [->|Hy]; [now left|right; auto].
        -- split; auto. split; auto. intros y Hy. right. auto.
      * intros (L & S & I). destruct G as [|g G]; [discriminate|]. inversion S as [|? ? S1 F1]; subst. rewrite Forall_forall in F1.
        destruct (I g (or_introl eq_refl)) as [<-|Hg].
        -- left. exists G. split; auto. apply (IHp l SL). split; [cbn in L; lia|]. split; auto.
           intros y Hy. destruct (I y (or_intror Hy)) as [->|]; auto. specialize (F1 _ Hy). lia.
        -- right. split; auto. split; auto. intros y Hy. destruct (I y Hy) as [->|]; auto. exfalso.
           destruct Hy as [->|Hy]; [pose proof (F _ Hg); lia|]. pose proof (F _ Hg). pose proof (F1 _ Hy). lia.
Qed.
Lemma nodup_app {A} (l l' : list A) : NoDup l -> NoDup l' -> (forall x, In x l -> ~ In x l') -> NoDup (l ++ l')%list.
Proof.
  intros N N' H. induction N as [|a l Ha N IH]; cbn; auto. constructor.
  - rewrite in_app_iff. intros [Hi|Hi]; [auto|]. apply (H a); auto. now left.
  - apply IH. intros x Hx. apply H. now right.
Qed.
Lemma nodup_app_l {A} (l l' : list A) : NoDup (l ++ l')%list -> NoDup l.
Proof.
  induction l as [|a l IH]; intro H; [constructor|]. cbn in H. inversion H; subst. constructor; auto. intro Hi. apply H2. apply in_or_app. now left.
Qed.
Lemma combinations_nodup p : forall l, StronglySorted lt l -> NoDup (combinations p l).
Proof.
  induction p as [|p IHp]; intros l SL; [rewrite combinations_0; repeat constructor; easy|].
  induction SL as [|x l SL IHl F]; cbn [combinations]; [constructor|]. apply nodup_app; auto.
  - specialize (IHp l SL). clear - IHp. induction IHp as [|G L HG N IH]; cbn; constructor; auto. rewrite in_map_iff. intros (G' & E & HG'). inversion E; subst. auto.
  - intros G HG HG'. apply in_map_iff in HG. destruct HG as (G' & <- & _). apply combinations_spec in HG'; auto.
    destruct HG' as (_ & _ & I). rewrite Forall_forall in F. specialize (F x (I x (or_introl eq_refl))). lia.
Qed.
Lemma seq_sorted n : forall a, StronglySorted lt (seq a n).
Proof. induction n as [|n IH]; intro a; cbn; constructor; auto. apply Forall_forall. intros x Hx. apply in_seq in Hx. lia. Qed.
Lemma sorted_nodup l : StronglySorted lt l -> NoDup l.
Proof. induction 1 as [|a l S IH F]; constructor; auto. intro H. rewrite Forall_forall in F. specialize (F a H). lia. Qed.
Lemma plgroups_spec num G : In G (plgroups num) <-> planet_set num G.
Proof.
  unfold plgroups. rewrite in_flat_map. split.
  - intros (p & Hp & HG). apply combinations_spec in HG; [|apply seq_sorted]. destruct HG as (L & S & I). apply in_seq in Hp. split; [|split; auto].
    + intros ->. cbn in L. lia.
    + intros n Hn. specialize (I n Hn). apply in_seq in I. lia.
  - intros (N & S & R). exists (length G).
    assert (incl G (seq 1 num)) as I by (intros n Hn; apply in_seq; specialize (R n Hn); lia).
    split.
    + apply in_seq. split; [destruct G; [easy|cbn; lia]|]. pose proof (NoDup_incl_length (sorted_nodup _ S) I) as Q. rewrite seq_length in Q. lia.
    + apply combinations_spec; auto. apply seq_sorted.
Qed.
Lemma plgroups_nodup num : NoDup (plgroups num).
Proof.
  unfold plgroups. assert (forall l, NoDup l -> NoDup (flat_map (fun p => combinations p (seq 1 num)) l)) as Q; [|apply Q, seq_NoDup].
  induction 1 as [|p l Hp N IH]; cbn; [constructor|]. apply nodup_app; auto.
  - apply combinations_nodup, seq_sorted.
  - intros G HG HG'. apply in_flat_map in HG'. destruct HG' as (q & Hq & HG').
    apply combinations_spec in HG; [|apply seq_sorted]. apply combinations_spec in HG'; [|apply seq_sorted].
    destruct HG as [L _], HG' as [L' _]. subst. auto.
Qed.
(** there are 2^num - 1 of them *)
Lemma combinations_length l : forall p, (length l < p)%nat -> combinations p l = [].
Proof.
  induction l as [|x l IH]; intros p H; destruct p as [|p]; cbn in H; try lia; cbn [combinations]; auto.
  rewrite (IH p) by lia. rewrite (IH (S p)) by lia. reflexivity.
Qed.
Lemma sum_all l : forall n, (length l <= n)%nat -> length (flat_map (fun p => combinations p l) (seq 0 (S n))) = (2 ^ length l)%nat.
Proof.
  induction l as [|x l IH]; intros n H.
  - cbn [seq flat_map]. assert (forall k, (0 < k)%nat -> combinations k [] = []) as Z by (intros [|k]; [lia|reflexivity]).
    assert (forall m a, (0 < a)%nat -> flat_map (fun p => combinations p []) (seq a m) = []) as Q.
    { induction m as [|m IHm]; intros a Ha; cbn [seq flat_map]; auto. rewrite Z by auto. apply IHm. lia. }
    rewrite Q by lia. reflexivity.
  - destruct n as [|n]; [cbn in H; lia|]. cbn [length Nat.pow]. 
    assert (forall m a, length (flat_map (fun p => combinations p (x :: l)) (seq (S a) m)) =
      (length (flat_map (fun p => combinations p l) (seq a m)) + length (flat_map (fun p => combinations p l) (seq (S a) m)))%nat) as Q.
    { induction m as [|m IHm]; intro a; cbn [seq flat_map]; auto. rewrite !app_length, IHm. cbn [combinations]. rewrite app_length, map_length. lia. }
    change (seq 0 (S (S n))) with (0%nat :: seq 1 (S n)). cbn [flat_map]. rewrite app_length, Q.
    rewrite (IH n) by (cbn in H; lia).
    assert (length (flat_map (fun p => combinations p l) (seq 0 (S (S n)))) = (2 ^ length l)%nat) as E by (apply IH; cbn in H; lia).
    change (seq 0 (S (S n))) with (0%nat :: seq 1 (S n)) in E. cbn [flat_map] in E. rewrite app_length in E.
    assert (length (combinations 0 (x :: l)) = length (combinations 0 l)) as E0 by (now rewrite !combinations_0). lia.
Qed.
Lemma plgroups_count num : length (plgroups num) = (2 ^ num - 1)%nat.
Proof.
  pose proof (sum_all (seq 1 num) num) as H. rewrite seq_length in H. specialize (H (Nat.le_refl _)).
  change (seq 0 (S num)) with (0%nat :: seq 1 num) in H. cbn [flat_map] in H. rewrite app_length, combinations_0 in H. cbn [length] in H.
  unfold plgroups. lia.
Qed.

(** ** flags *)
Lemma flag_spec env s k i : dget (e_idx env) k = Some i -> (i < length (m_rows s))%nat ->
  exists b, flag env s k = Ok b /\ (b = true <-> free_key env s k).
Proof.
  intros A B. destruct (nth_error (m_rows s) i) as [r|] eqn:E; [|apply nth_error_None in E; lia].
  unfold flag. rewrite (row_at_ok _ _ _ _ _ A E). cbn. exists (m_vary r). split; auto. split.
  - intro V. exists i. split; auto. exists r. auto.
  - intros (j & Ej & r' & Er & V). rewrite A in Ej. inversion Ej; subst j. rewrite E in Er. inversion Er; subst. exact V.
Qed.
Lemma map_res_bools {A} (f : A -> res bool) (P : A -> Prop) l : (forall a, In a l -> exists b, f a = Ok b /\ (b = true <-> P a)) ->
  exists bs, map_res f l = Ok bs /\ (existsb (fun b => b) bs = true <-> exists a, In a l /\ P a) /\ (forallb (fun b => b) bs = true <-> forall a, In a l -> P a).
Proof.
  induction l as [|a l IH]; intro H; cbn [map_res].
  - exists []. split; auto. cbn. split; split; try discriminate; auto.
    + intros (a & [] & _).
    + intros _ a [].
  - destruct (H a (or_introl eq_refl)) as (b & E & Q). rewrite E. cbn [bind]. destruct IH as (bs & -> & Q1 & Q2); [auto with datatypes|].
    exists (b :: bs). split; auto. cbn [existsb forallb]. rewrite orb_true_iff, andb_true_iff, Q, Q1, Q2. split; split.
    + intros [H1|(x & H1 & H2)]; [exists a|exists x]; auto with datatypes.
    + intros (x & [->|H1] & H2); [now left|right; eauto].
    + intros [H1 H2] x [->|H3]; auto.
    + intro H1. split; auto with datatypes.
Qed.
Lemma all_any_spec env names s G :
  (forall m p, In m G -> In p names -> exists i, dget (e_idx env) (key p m) = Some i /\ (i < length (m_rows s))%nat) ->
  exists b, all_any env s (map (fun n => map (fun p => key p n) names) G) = Ok b /\ (b = true <-> set_free env names s G).
Proof.
  intro H. unfold all_any.
  assert (forall (Gs : list nat), incl Gs G -> exists bs, map_res (fun l => do fs <- map_res (flag env s) l; Ok (existsb (fun b => b) fs)) (map (fun n => map (fun p => key p n) names) Gs) = Ok bs /\
    (forallb (fun b => b) bs = true <-> set_free env names s Gs)) as Q.
  { induction Gs as [|n Gs IH]; intro I; cbn [map map_res].
    - exists []. split; auto. split; auto. intros _ n [].
    - destruct (map_res_bools (flag env s) (free_key env s) (map (fun p => key p n) names)) as (fs & E & Q1 & _).
      { intros k Hk. apply in_map_iff in Hk. destruct Hk as (p & <- & Hp). destruct (H n p) as (i & Ei & Li); auto with datatypes. eapply flag_spec; eauto. }
      rewrite E. cbn [bind]. destruct IH as (bs & -> & Q2); [intros x Hx; apply I; now right|]. cbn [bind]. eexists. split; [reflexivity|].
      cbn [forallb]. rewrite andb_true_iff, Q1, Q2. split.
      + intros [(k & Hk & F) H2] m [<-|Hm]; auto. apply in_map_iff in Hk. destruct Hk as (p & <- & Hp). eauto.
      + intro H2. split.
        * destruct (H2 n (or_introl eq_refl)) as (p & Hp & F). exists (key p n). split; auto. apply in_map_iff. eauto.
        * intros m Hm. apply H2. now right. }
  destruct (Q G (incl_refl _)) as (bs & -> & Q2). cbn [bind]. eauto.
Qed.

(** keys of a group of planets *)
Definition group_keys (names : list string) (G : list nat) : list string := concat (map (fun n => map (fun p => key p n) names) G).
Lemma group_keys_in names G k : In k (group_keys names G) <-> planet_key names G k.
Proof.
  unfold group_keys. rewrite in_concat. split.
  - intros (l & Hl & Hk). apply in_map_iff in Hl. destruct Hl as (n & <- & Hn). apply in_map_iff in Hk. destruct Hk as (p & <- & Hp). exists n, p. auto.
  - intros (n & p & Hn & Hp & ->). exists (map (fun p => key p n) names). split; apply in_map_iff; eauto.
Qed.
Lemma group_keys_nodup names G : incl names PNAMES -> NoDup names -> NoDup G -> NoDup (group_keys names G).
Proof.
  intros I N NG. unfold group_keys. induction NG as [|n G Hn NG IH]; cbn; [constructor|]. apply nodup_app; auto.
  - clear - I N. induction N as [|p l Hp N IH]; cbn; constructor.
    + rewrite in_map_iff. intros (q & E & Hq). apply key_inj in E; [|apply pnames_no_digit, I; now right|apply pnames_no_digit, I; now left]. destruct E as [-> _]. auto.
    + apply IH. intros x Hx. apply I. now right.
  - intros k H1 H2. apply in_map_iff in H1. destruct H1 as (p & <- & Hp). apply group_keys_in in H2. destruct H2 as (m & q & Hm & Hq & E).
    apply key_inj in E; [|apply pnames_no_digit; auto|apply pnames_no_digit; auto]. destruct E as [_ ->]. auto.
Qed.

(** the parameter names of a basis *)
Lemma eparams_spec b names : In (b, names) FIT_BASES -> exists ep cp,
  get_eparams b = Ok ep /\ get_circparams b = Ok cp /\ basis_names b ep cp /\ NoDup (ep ++ cp)%list /\ incl (ep ++ cp)%list PNAMES.
Proof.
  intro H. cbn [FIT_BASES In] in H.
  decompose [or] H; try contradiction; match goal with E : (_, _) = _ |- _ => injection E as <- <- end;
    (do 2 eexists; split; [reflexivity|]; split; [reflexivity|]; split;
      [split; [eexists; split; [cbn; tauto|]; intro p; cbn; tauto|intro p; cbn; intuition (subst; try discriminate; auto)]|
       split; [repeat (constructor; [cbn; intuition discriminate|]); constructor|intros p Hp; cbn in Hp |- *; intuition]]).
Qed.
Lemma eparams_ok b ep cp : get_eparams b = Ok ep -> get_circparams b = Ok cp -> exists names, In (b, names) FIT_BASES.
Proof.
  unfold get_eparams, params_of. intros H _. destruct (negb _); [discriminate|].
  unfold dget_res in H. destruct (dget ECCENTRICITY_PARAMS_DICT b) eqn:E; [|discriminate]. clear H.
  cbn [ECCENTRICITY_PARAMS_DICT dget] in E.
  repeat (match type of E with (if String.eqb ?a ?c then _ else _) = _ => destruct (String.eqb_spec a c) as [->|] end; [eexists; cbn; tauto|]). discriminate.
Qed.

Section Stages.
  Variables (stats : Type) (env : menv) (fit : pst -> pst * res stats) (ep cp : list string) (n : nat).
  Hypothesis EO : env_ok env ep cp n.

  (** fit the models one after the other, stopping at the first failure *)
  Fixpoint run_fits (ms : list pst) (l : list stats) : list stats * res unit :=
    match ms with
    | [] => (l, Ok tt)
    | m :: r => match snd (fit m) with Ok st => run_fits r (l ++ [st])%list | Err e => (l, Err e) end
    end.
  Lemma run_fits_app a b l : run_fits (a ++ b)%list l = (let '(l1, r) := run_fits a l in match r with Ok _ => run_fits b l1 | Err e => (l1, Err e) end).
  Proof. revert l. induction a as [|m a IH]; intro l; cbn [run_fits app]; auto. destruct (snd (fit m)); auto. Qed.

  Definition okst (s : pst) : Prop := length (m_rows s) = n /\ m_cp s <> None.
  Lemma okst_relist s : length (m_rows s) = n -> okst (relist s).
  Proof. intro H. split; [exact H|discriminate]. Qed.

  Variables (rec : list string -> pst -> list stats -> out stats) (params : list string).
  Hypothesis HR : forall c, okst c -> exists ms, models env ep cp params c ms /\ forall l, on_copy stats rec params c l = run_fits ms l.

  Lemma names5 : NoDup (ep ++ cp)%list /\ incl (ep ++ cp)%list PNAMES /\ NoDup ep /\ incl ep PNAMES.
  Proof.
    destruct (eparams_ok _ _ _ (eo_ep _ _ _ _ EO) (eo_cp _ _ _ _ EO)) as [names H]. destruct (eparams_spec _ _ H) as (ep' & cp' & E1 & E2 & _ & N & I).
    rewrite (eo_ep _ _ _ _ EO) in E1. rewrite (eo_cp _ _ _ _ EO) in E2. inversion E1; inversion E2; subst ep' cp'.
    split; auto. split; auto. split; [eapply nodup_app_l; eauto|]. intros p Hp. apply I. apply in_or_app. now left.
  Qed.

  (** *** jitter *)
  Definition flagb (s : pst) (k : string) : bool := match flag env s k with Ok b => b | Err _ => false end.
  Definition jitfree (s : pst) (k : string) : bool := startswith k "jit" && flagb s k.
  Definition jit_change (c : pst) (k : string) : res pst := do c1 <- put_val env (Fin (/ 10 ^ 6)%R) c k; put_fixed env c1 k.
  Lemma jit_loop post ks : (forall k, In k ks -> startswith k "jit" = true -> exists b, flag env post k = Ok b) ->
    forall c b, for_each ks (jit_step env post) (c, b) =
      do c' <- for_each (filter (jitfree post) ks) jit_change c; Ok (c', b || existsb (jitfree post) ks).
  Proof.
    induction ks as [|k ks IH]; intros H c b; cbn [for_each filter existsb].
    - cbn. now rewrite orb_false_r.
    - unfold jit_step at 1. destruct (startswith k "jit") eqn:Ek.
      + destruct (H k (or_introl eq_refl) Ek) as [f Ef]. assert (jitfree post k = f) as -> by (unfold jitfree, flagb; now rewrite Ek, Ef).
        rewrite Ef. cbn [bind fst]. destruct f; cbn [orb].
        * cbn [for_each]. unfold jit_change at 1. destruct (put_val env _ c k) as [c1|]; cbn [bind]; auto. destruct (put_fixed env c1 k) as [c2|]; cbn [bind]; auto.
          rewrite IH by auto with datatypes. destruct b; reflexivity.
        * cbn [bind]. rewrite IH by auto with datatypes. reflexivity.
      + assert (jitfree post k = false) as -> by (unfold jitfree; now rewrite Ek). cbn [orb bind]. rewrite IH by auto with datatypes. reflexivity.
  Qed.
  Lemma jit_change_sets k : sets_row env (fun _ => mkM (Fin (/ 10 ^ 6)%R) false) (fun c => jit_change c k) k.
  Proof. apply (sets_same _ _ _ _ (sets_then_sets env _ _ _ _ k (put_val_sets env (Fin (/ 10 ^ 6)%R) k) (put_fixed_sets env k))). reflexivity. Qed.

  Lemma mc_jit_spec s : okst s -> exists cs mss, stage env ep cp s "jit" cs /\ Forall2 (models env ep cp params) cs mss /\
    forall l, mc_jit stats env rec params s l = (s, fst (run_fits (concat mss) l), snd (run_fits (concat mss) l)).
  Proof.
    intros [L P]. unfold mc_jit.
    assert (forall k, In k (e_names env) -> startswith k "jit" = true -> exists b, flag env s k = Ok b /\ (b = true <-> free_key env s k)) as FL.
    { intros k Hk Hj. destruct (eo_jit _ _ _ _ EO k Hk Hj) as (i & Ei & Li). eapply flag_spec; eauto. now rewrite L. }
    assert (forall k, In k (e_names env) -> jitfree s k = true <-> startswith k "jit" = true /\ free_key env s k) as JF.
    { intros k Hk. unfold jitfree, flagb. destruct (startswith k "jit") eqn:Ej; cbn [andb]; [|split; [discriminate|intros []; discriminate]].
      destruct (FL k Hk Ej) as (b & -> & Q). rewrite Q. split; [auto|intros []; auto]. }
    rewrite jit_loop by (intros k Hk Hj; destruct (FL k Hk Hj) as (b & Eb & _); eauto).
    set (ks := filter (jitfree s) (e_names env)).
    assert (forall k, In k ks <-> In k (e_names env) /\ String.prefix "jit" k = true /\ free_key env s k) as KS.
    { intro k. unfold ks. rewrite filter_In. split; [intros [A B]; split; auto; now apply JF|intros (A & B & C); split; auto; now apply JF]. }
    destruct (loop_changed env (fun _ _ => mkM (Fin (/ 10 ^ 6)%R) false) jit_change ks s) as (c & Ec & CH & P1 & P2).
    { intros k _. apply jit_change_sets. }
    { intros k Hk. apply KS in Hk. destruct Hk as (A & B & _). destruct (eo_jit _ _ _ _ EO k A B) as (i & Ei & Li). exists i. rewrite L. auto. }
    { intros k k' i Hk Hk'. apply KS in Hk, Hk'. apply (eo_inj _ _ _ _ EO); left; tauto. }
    { apply NoDup_filter. apply (eo_names _ _ _ _ EO). }
    rewrite Ec. cbn [bind orb].
    destruct (HR (relist s)) as (ms1 & M1 & F1); [now apply okst_relist|].
    destruct (existsb (jitfree s) (e_names env)) eqn:EX.
    - assert (length (m_rows c) = n) as Lc by (rewrite <- L; apply CH).
      destruct (HR (relist c)) as (ms & M & F); [now apply okst_relist|].
      apply existsb_exists in EX. destruct EX as (k & Hk & Hj). apply JF in Hj; auto.
      exists [relist c; relist s], [ms; ms1]. split; [|split].
      + apply st_jit_free with k; try tauto; [|apply relist_unchanged]. split; [|apply relist_fresh].
        apply changed_relist. apply (changed_ext env (fun k => In k ks)); auto.
      + repeat constructor; auto.
      + intro l. rewrite F. cbn [concat]. rewrite app_nil_r, run_fits_app. destruct (run_fits ms l) as [l1 r1]. destruct r1; [|reflexivity].
        rewrite F1. now destruct (run_fits ms1 l1).
    - exists [relist s], [ms1]. split; [|split].
      + apply st_jit_fixed; [|apply relist_unchanged]. intros k Hk Hp Hf.
        assert (jitfree s k = true) as Q by (apply JF; auto).
        enough (existsb (jitfree s) (e_names env) = true) by congruence. apply existsb_exists. eauto.
      + repeat constructor; auto.
      + intro l. rewrite F1. cbn [concat]. rewrite app_nil_r. now destruct (run_fits ms1 l).
  Qed.

  (** *** trend *)
  Lemma put_changed s k i r x : dget (e_idx env) k = Some i -> nth_error (m_rows s) i = Some r ->
    exists c, put_val env x s k = Ok c /\ m_rows c = list_upd (m_rows s) i (mkM x (m_vary r)).
  Proof. intros A B. rewrite (put_val_sets env x k s i r A B). eexists. split; reflexivity. Qed.
  Lemma fix_changed s k i r : dget (e_idx env) k = Some i -> nth_error (m_rows s) i = Some r ->
    exists c, put_fixed env s k = Ok c /\ m_rows c = list_upd (m_rows s) i (mkM (m_val r) false).
  Proof. intros A B. rewrite (put_fixed_sets env k s i r A B). eexists. split; reflexivity. Qed.

  Lemma trend_free s k : In k ["curv"; "dvdt"] -> length (m_rows s) = n -> free_key env s k ->
    exists i r i1 i2 ms, dget (e_idx env) k = Some i /\ nth_error (m_rows s) i = Some r /\ m_vary r = true /\
      m_rows i1 = list_upd (m_rows s) i (mkM (Fin 0) true) /\ m_rows i2 = list_upd (m_rows s) i (mkM (Fin 0) false) /\
      models env ep cp params (relist i1) ms /\
      forall l, trend_step stats env rec params (s, l) k =
        ((if snd (run_fits ms l) then i2 else i1, fst (run_fits ms l)), snd (run_fits ms l)).
  Proof.
    intros Hk L (i & Ei & r & Er & V). exists i, r.
    destruct (put_changed s k i r (Fin 0) Ei Er) as (i1 & E1 & R1). rewrite V in R1.
    assert (nth_error (m_rows i1) i = Some (mkM (Fin 0) true)) as N1 by (rewrite R1; apply nth_upd_same, nth_error_Some; congruence).
    destruct (fix_changed i1 k i _ Ei N1) as (i2 & E2 & R2). cbn [m_val] in R2. rewrite R1, list_upd_twice in R2.
    destruct (HR (relist i1)) as (ms & M & F). { apply okst_relist. rewrite R1. now rewrite len_upd. }
    exists i1, i2, ms. repeat split; auto. intro l. unfold trend_step.
    assert (flag env s k = Ok true) as -> by (unfold flag; rewrite (row_at_ok _ _ _ _ _ Ei Er); cbn; now rewrite V).
    rewrite E1, F. destruct (run_fits ms l) as [l1 r1]. destruct r1 as [[]|]; cbn [fst snd]; [|reflexivity]. now rewrite E2.
  Qed.
  Lemma trend_not s k : In k ["curv"; "dvdt"] -> length (m_rows s) = n -> ~ free_key env s k ->
    forall l, trend_step stats env rec params (s, l) k = ((s, l), Ok tt).
  Proof.
    intros Hk L N l. destruct (eo_trend _ _ _ _ EO k Hk) as (i & Ei & Li). rewrite <- L in Li.
    destruct (flag_spec env s k i Ei Li) as (b & Eb & Q). unfold trend_step. rewrite Eb. destruct b; auto. destruct N. now apply Q.
  Qed.

  Lemma changed1 (g : string -> mrow -> mrow) s c k i r : dget (e_idx env) k = Some i -> nth_error (m_rows s) i = Some r ->
    m_rows c = list_upd (m_rows s) i (g k r) -> changed env (fun q => In q [k]) g s c.
  Proof.
    intros A B C. split; [rewrite C; apply len_upd|]. rewrite C. split.
    - intros q j r' [<-|[]] Hj Hr. rewrite A in Hj. inversion Hj; subst j. rewrite B in Hr. inversion Hr; subst r'.
      apply nth_upd_same, nth_error_Some. congruence.
    - intros j Hj. apply nth_upd_other. intros ->. apply (Hj k); auto. now left.
  Qed.
  Lemma changed2 (g : string -> mrow -> mrow) s c k i r k' i' r' : i <> i' -> dget (e_idx env) k = Some i -> nth_error (m_rows s) i = Some r ->
    dget (e_idx env) k' = Some i' -> nth_error (m_rows s) i' = Some r' ->
    m_rows c = list_upd (list_upd (m_rows s) i (g k r)) i' (g k' r') -> changed env (fun q => In q [k; k']) g s c.
  Proof.
    intros N A B A' B' C. split; [rewrite C, !len_upd; reflexivity|]. rewrite C. split.
    - intros q j q' [<-|[<-|[]]] Hj Hr.
      + rewrite A in Hj. inversion Hj; subst j. rewrite B in Hr. inversion Hr; subst q'.
        rewrite nth_upd_other by auto. apply nth_upd_same, nth_error_Some. congruence.
      + rewrite A' in Hj. inversion Hj; subst j. rewrite B' in Hr. inversion Hr; subst q'.
        apply nth_upd_same. rewrite len_upd. apply nth_error_Some. congruence.
    - intros j Hj. rewrite !nth_upd_other; auto; intros ->; [apply (Hj k)|apply (Hj k')]; cbn; auto.
  Qed.
  Definition tg (fixed : list string) (k : string) (r : mrow) : mrow := mkM (Fin 0) (if in_dec string_dec k fixed then false else m_vary r).

  Lemma mc_trend_spec s : okst s -> exists cs mss, stage env ep cp s "trend" cs /\ Forall2 (models env ep cp params) cs mss /\
    forall l, mc_trend stats env rec params s l = (s, fst (run_fits (concat mss) l), snd (run_fits (concat mss) l)).
  Proof.
    intros [L P].
    destruct (eo_trend _ _ _ _ EO "curv") as (a & Ea & La); [cbn; auto|]. destruct (eo_trend _ _ _ _ EO "dvdt") as (b & Eb & Lb); [cbn; auto|].
    assert (a <> b) as Nab. { intros ->. assert ("curv" = "dvdt"); [|discriminate]. apply (eo_inj _ _ _ _ EO _ _ b); auto; right; right; cbn; auto. }
    destruct (flag_spec env s "curv" a Ea) as (fc & _ & Qc); [now rewrite L|]. destruct (flag_spec env s "dvdt" b Eb) as (fd & _ & Qd); [now rewrite L|].
    assert (free_key env s "curv" \/ ~ free_key env s "curv") as [Fc|Fc] by (destruct fc; [left; now apply Qc|right; intro H; apply Qc in H; discriminate]);
    assert (free_key env s "dvdt" \/ ~ free_key env s "dvdt") as [Fd|Fd] by (destruct fd; [left; now apply Qd|right; intro H; apply Qd in H; discriminate]).
    - destruct (trend_free s "curv") as (i & r & i1 & i2 & ms1 & Ei & Er & V & R1 & R2 & M1 & T1); [cbn; auto|auto|auto|].
      rewrite Ea in Ei. inversion Ei; subst i. clear Ei.
      assert (length (m_rows i2) = n) as L2 by (rewrite R2, len_upd; auto).
      pose proof Fd as (b' & Eb' & rd & Erd & Vd). rewrite Eb in Eb'. inversion Eb'; subst b'.
      assert (nth_error (m_rows i2) b = Some rd) as Erd2 by (rewrite R2, nth_upd_other; auto).
      destruct (trend_free i2 "dvdt") as (j & r' & j1 & j2 & ms2 & Ej & Er' & V' & S1 & S2 & M2 & T2); [cbn; auto|auto|exists b; split; auto; exists rd; auto|].
      rewrite Eb in Ej. inversion Ej; subst j. rewrite Erd2 in Er'. inversion Er'; subst r'. rewrite R2 in S1, S2.
      destruct (HR (relist j2)) as (ms3 & M3 & F3). { apply okst_relist. rewrite S2, !len_upd. exact L. }
      exists [relist i1; relist j1; relist j2], [ms1; ms2; ms3]. split; [|split].
      + apply st_trend_both; auto; (split; [|apply relist_fresh]).
        * exists (tg []). split; [|reflexivity]. apply changed_relist. eapply changed1; eauto. rewrite R1. unfold tg. cbn. now rewrite V.
        * exists (tg ["curv"]). split; [|reflexivity]. apply changed_relist. eapply (changed2 _ s j1 "curv" a r "dvdt" b rd); eauto. rewrite S1. unfold tg. cbn. now rewrite Vd.
        * exists (tg ["curv"; "dvdt"]). split; [|reflexivity]. apply changed_relist. eapply (changed2 _ s j2 "curv" a r "dvdt" b rd); eauto.
      + repeat constructor; auto.
      + intro l. unfold mc_trend. rewrite T1. cbn [concat]. rewrite app_nil_r, !run_fits_app. destruct (run_fits ms1 l) as [l1 [u|e]]; cbn [fst snd]; [|reflexivity].
        rewrite T2, run_fits_app. destruct (run_fits ms2 l1) as [l2 [u2|e2]]; cbn [fst snd]; [|reflexivity]. rewrite F3. now destruct (run_fits ms3 l2).
    - destruct (trend_free s "curv") as (i & r & i1 & i2 & ms1 & Ei & Er & V & R1 & R2 & M1 & T1); [cbn; auto|auto|auto|].
      rewrite Ea in Ei. inversion Ei; subst i. clear Ei.
      assert (length (m_rows i2) = n) as L2 by (rewrite R2, len_upd; auto).
      destruct (HR (relist i2)) as (ms3 & M3 & F3). { now apply okst_relist. }
      assert (~ free_key env i2 "dvdt") as Fd2.
      { intros (j & Ej & rj & Hj & Vj). apply Fd. exists j. split; auto. exists rj. split; auto. rewrite Eb in Ej. inversion Ej; subst j.
        rewrite R2, nth_upd_other in Hj; auto. }
      exists [relist i1; relist i2], [ms1; ms3]. split; [|split].
      + apply st_trend_curv; auto; (split; [|apply relist_fresh]).
        * exists (tg []). split; [|reflexivity]. apply changed_relist. eapply changed1; eauto. rewrite R1. unfold tg. cbn. now rewrite V.
        * exists (tg ["curv"]). split; [|reflexivity]. apply changed_relist. eapply changed1; eauto.
      + repeat constructor; auto.
      + intro l. unfold mc_trend. rewrite T1. cbn [concat]. rewrite app_nil_r, run_fits_app. destruct (run_fits ms1 l) as [l1 [u|e]]; cbn [fst snd]; [|reflexivity].
        rewrite trend_not by (cbn; auto). rewrite F3. now destruct (run_fits ms3 l1).
    - destruct (trend_free s "dvdt") as (i & r & i1 & i2 & ms1 & Ei & Er & V & R1 & R2 & M1 & T1); [cbn; auto|auto|auto|].
      rewrite Eb in Ei. inversion Ei; subst i. clear Ei.
      assert (length (m_rows i2) = n) as L2 by (rewrite R2, len_upd; auto).
      destruct (HR (relist i2)) as (ms3 & M3 & F3). { now apply okst_relist. }
      exists [relist i1; relist i2], [ms1; ms3]. split; [|split].
      + apply st_trend_dvdt; auto; (split; [|apply relist_fresh]).
        * exists (tg []). split; [|reflexivity]. apply changed_relist. eapply changed1; eauto. rewrite R1. unfold tg. cbn. now rewrite V.
        * exists (tg ["dvdt"]). split; [|reflexivity]. apply changed_relist. eapply changed1; eauto.
      + repeat constructor; auto.
      + intro l. unfold mc_trend. rewrite trend_not by (cbn; auto). rewrite T1. cbn [concat]. rewrite app_nil_r, run_fits_app. destruct (run_fits ms1 l) as [l1 [u|e]]; cbn [fst snd]; [|reflexivity].
        rewrite F3. now destruct (run_fits ms3 l1).
    - destruct (HR (relist s)) as (ms3 & M3 & F3). { now apply okst_relist. }
      exists [relist s], [ms3]. split; [|split].
      + apply st_trend_none; auto. apply relist_unchanged.
      + repeat constructor; auto.
      + intro l. unfold mc_trend. rewrite !trend_not by (cbn; auto). rewrite F3. cbn [concat]. rewrite app_nil_r. now destruct (run_fits ms3 l).
  Qed.

  (** *** sets of planets *)
  Lemma sets_loop_spec names change finish g s Gs : okst s -> incl names (ep ++ cp)%list -> NoDup names ->
    (forall k, sets_row env (g k) (fun c => change c k) k) ->
    (forall c, m_cp c <> None -> finish c = Ok (relist c)) ->
    (forall G, In G Gs -> planet_set (e_num env) G) ->
    exists Gs' cs mss, (NoDup Gs -> NoDup Gs') /\ (forall G, In G Gs' <-> In G Gs /\ set_free env names s G) /\
      Forall2 (fun G c => changed env (planet_key names G) g s c /\ fresh c) Gs' cs /\ Forall2 (models env ep cp params) cs mss /\
      forall l, sets_loop stats env rec change finish params s (map (fun g => map (fun n => map (fun p => key p n) names) g) Gs) l = run_fits (concat mss) l.
  Proof.
    intros [L P] I ND SR FI. pose proof names5 as (N5 & I5 & _ & _).
    induction Gs as [|G Gs IH]; intro HG; cbn [map sets_loop].
    - exists [], [], []. split; auto. split; [intro G; split; [intros []|intros [[] _]]|]. split; [constructor|]. split; [constructor|auto].
    - destruct IH as (Gs' & cs & mss & Q1 & Q2 & Q3 & Q4 & Q5); [auto with datatypes|].
      destruct (HG G (or_introl eq_refl)) as (GN & GS & GR).
      assert (forall m p, In m G -> In p names -> exists i, dget (e_idx env) (key p m) = Some i /\ (i < length (m_rows s))%nat) as IX.
      { intros m p Hm Hp. rewrite L. apply (eo_planet _ _ _ _ EO); auto. }
      destruct (all_any_spec env names s G IX) as (b & Eb & Qb).
      destruct b.
      + destruct (loop_changed env g change (group_keys names G) s) as (c & Ec & CH & P1 & P2).
        { intros k _. apply SR. }
        { intros k Hk. apply group_keys_in in Hk. destruct Hk as (m & p & Hm & Hp & ->). auto. }
        { intros k k' i Hk Hk'. apply group_keys_in in Hk, Hk'. apply (eo_inj _ _ _ _ EO); right; left;
            [destruct Hk as (m & p & Hm & Hp & ->)|destruct Hk' as (m & p & Hm & Hp & ->)]; exists m, p; (split; [apply in_seq; specialize (GR m Hm); lia|auto]). }
        { apply group_keys_nodup; auto; [intros p Hp; auto|now apply sorted_nodup]. }
        destruct (HR (relist c)) as (ms & M & F). { apply okst_relist. rewrite <- L. apply CH. }
        exists (G :: Gs'), (relist c :: cs), (ms :: mss). split; [|split; [|split; [|split]]].
        * intro NDG. inversion NDG; subst. constructor; auto. rewrite Q2. tauto.
        * intro G0. cbn [In]. rewrite Q2. split; [|tauto]. intros [<-|[A B]]; [split; [now left|now apply Qb]|split; [now right|auto]].
        * constructor; auto. split; [|apply relist_fresh]. apply changed_relist.
          apply (changed_ext env (fun k => In k (group_keys names G))); auto. apply group_keys_in.
        * constructor; auto.
        * intro l. rewrite Eb. unfold change_all. rewrite for_each_concat. unfold group_keys in Ec. rewrite Ec. cbn [bind]. rewrite FI by congruence.
          rewrite F. cbn [concat]. rewrite run_fits_app. destruct (run_fits ms l) as [l1 [u|e]]; auto.
      + exists Gs', cs, mss. split; [|split; [|split; [|split]]]; auto.
        * intro NDG. inversion NDG; subst. auto.
        * intro G0. rewrite Q2. cbn [In]. split; [tauto|]. intros [[<-|A] B]; [|auto]. apply Qb in B. discriminate.
        * intro l. rewrite Eb. apply Q5.
  Qed.

  Lemma remove_param_sets k : sets_row env (fun r => mkM (if startswith k "logk" then NInf else if startswith k "k" then Fin 0 else m_val r) false)
    (fun c => remove_param env c k) k.
  Proof.
    assert (forall b x, sets_row env (fun r => if b : bool then mkM x (m_vary r) else r) (fun c => if b then put_val env x c k else Ok c) k) as Q.
    { intros [|] x; [apply put_val_sets|apply ok_sets]. }
    unfold remove_param, starts_k.
    pose proof (sets_then_sets env _ _ _ _ k (Q (startswith k "k") (Fin 0)) (sets_then_sets env _ _ _ _ k (Q (startswith k "logk") NInf) (put_fixed_sets env k))) as S.
    apply (sets_same _ _ _ _ S). intro r. destruct (startswith k "k"), (startswith k "logk"); reflexivity.
  Qed.
  Lemma circularise_sets k : sets_row env (fun _ => mkM (Fin 0) false) (fun c => circularise env c k) k.
  Proof. apply (sets_same _ _ _ _ (sets_then_sets env _ _ _ _ k (put_val_sets env (Fin 0) k) (put_fixed_sets env k))). reflexivity. Qed.

  Lemma key_prefix p m : In p PNAMES -> startswith (key p m) "k" = String.eqb p "k" /\ startswith (key p m) "logk" = String.eqb p "logk".
  Proof.
    unfold startswith, key. intro H. cbn [PNAMES In] in H.
    decompose [or] H; try contradiction; subst p; cbn [append String.eqb Ascii.eqb Bool.eqb String.prefix ascii_dec]; split; try reflexivity; cbn; destruct (str_nat m); reflexivity.
  Qed.

  Lemma mc_sets_spec names change finish g s : okst s -> incl names (ep ++ cp)%list -> NoDup names ->
    (forall k, sets_row env (g k) (fun c => change c k) k) ->
    (forall c, m_cp c <> None -> finish c = Ok (relist c)) ->
    exists Gs cs c mss, free_sets env names s Gs /\ Forall2 (fun G c => changed env (planet_key names G) g s c /\ fresh c) Gs cs /\ unchanged s c /\
      Forall2 (models env ep cp params) (cs ++ [c])%list mss /\
      forall l, mc_sets stats env rec (Ok names) change finish params s l = (s, fst (run_fits (concat mss) l), snd (run_fits (concat mss) l)).
  Proof.
    intros OK I ND SR FI.
    destruct (sets_loop_spec names change finish g s (plgroups (e_num env)) OK I ND SR FI) as (Gs & cs & mss & Q1 & Q2 & Q3 & Q4 & Q5).
    { intro G. apply plgroups_spec. }
    destruct (HR (relist s)) as (ms & M & F). { apply okst_relist. apply OK. }
    exists Gs, cs, (relist s), (mss ++ [ms])%list. split; [|split; [|split; [|split]]]; auto.
    - split; [apply Q1, plgroups_nodup|]. intro G. rewrite Q2, plgroups_spec. reflexivity.
    - apply relist_unchanged.
    - apply Forall2_app; auto.
    - intro l. unfold mc_sets, plparams. rewrite Q5. rewrite concat_app, run_fits_app. cbn [concat]. rewrite app_nil_r.
      destruct (run_fits (concat mss) l) as [l1 [u|e]]; [|reflexivity]. rewrite F. now destruct (run_fits ms l1).
  Qed.

  Lemma forall2_mono {A B} (P Q : A -> B -> Prop) l l' : (forall a b, P a b -> Q a b) -> Forall2 P l l' -> Forall2 Q l l'.
  Proof. intros H F. induction F; constructor; auto. Qed.

  Lemma mc_nplanets_spec s : okst s -> exists cs mss, stage env ep cp s "nplanets" cs /\ Forall2 (models env ep cp params) cs mss /\
    forall l, mc_nplanets stats env rec params s l = (s, fst (run_fits (concat mss) l), snd (run_fits (concat mss) l)).
  Proof.
    intro OK. pose proof names5 as (N5 & I5 & _ & _).
    destruct (mc_sets_spec (ep ++ cp)%list (remove_param env) finish_np _ s OK (incl_refl _) N5 remove_param_sets) as (Gs & cs & c & mss & A & B & C & D & E).
    { intros c Hc. unfold finish_np. destruct (m_cp c); [reflexivity|easy]. }
    exists (cs ++ [c])%list, mss. split; [|split; auto].
    - apply st_nplanets with Gs; auto. eapply forall2_mono; [|exact B]. cbn beta. intros G c' [H1 H2]. split; auto.
      eexists. split; [exact H1|]. intros m p r Hp. cbn beta. destruct (key_prefix p m (I5 p Hp)) as [-> ->].
      destruct (String.eqb_spec p "k") as [->|]; [reflexivity|]. reflexivity.
    - intro l. unfold mc_nplanets. rewrite (eo_ep _ _ _ _ EO), (eo_cp _ _ _ _ EO). cbn [bind]. apply E.
  Qed.
  Lemma mc_e_spec s : okst s -> exists cs mss, stage env ep cp s "e" cs /\ Forall2 (models env ep cp params) cs mss /\
    forall l, mc_e stats env rec params s l = (s, fst (run_fits (concat mss) l), snd (run_fits (concat mss) l)).
  Proof.
    intro OK. pose proof names5 as (_ & _ & N2 & _).
    destruct (mc_sets_spec ep (circularise env) (fun c => Ok (relist c)) (fun _ _ => mkM (Fin 0) false) s OK) as (Gs & cs & c & mss & A & B & C & D & E); auto.
    { intros p Hp. apply in_or_app. now left. }
    { intro k. apply circularise_sets. }
    exists (cs ++ [c])%list, mss. split; [|split; auto].
    - apply st_e with Gs; auto.
    - intro l. unfold mc_e. rewrite (eo_ep _ _ _ _ EO). apply E.
  Qed.
End Stages.

Lemma without_filter x l : without x l = filter (fun p => if string_dec p x then false else true) l.
Proof. unfold without. induction l as [|p l IH]; cbn; auto. rewrite IH. destruct (String.eqb_spec p x), (string_dec p x); cbn; congruence. Qed.
Lemma without_shorter x l : In x l -> (length (without x l) < length l)%nat.
Proof.
  induction l as [|p l IH]; [intros []|]. intro H. cbn. destruct (String.eqb_spec p x) as [->|N]; cbn.
  - apply le_n_S. apply PostProofs.filter_length_le.
  - destruct H as [->|H]; [easy|]. specialize (IH H). unfold without in IH. apply -> Nat.succ_lt_mono. exact IH.
Qed.
Lemma str_in_spec x l : str_in x l = true <-> In x l.
Proof. unfold str_in. rewrite existsb_exists. split; [intros (y & H & E); apply String.eqb_eq in E; now subst|intro H; exists x; split; auto; apply String.eqb_refl]. Qed.
Lemma str_in_false x l : str_in x l = false <-> ~ In x l.
Proof. rewrite <- str_in_spec. destruct (str_in x l); split; congruence. Qed.

Section Main.
  Variables (stats : Type) (env : menv) (fit : pst -> pst * res stats) (ep cp : list string) (n : nat).
  Hypothesis EO : env_ok env ep cp n.
  Notation run_fits := (run_fits stats fit).

  Lemma mc_main fuel : forall params s, (length params <= fuel)%nat -> incl params ["e"; "nplanets"; "trend"; "jit"] -> okst n s ->
    exists ms, models env ep cp params s ms /\
      forall l, mc stats env fit fuel params s l = (match params with [] => fst (fit s) | _ => s end, fst (run_fits ms l), snd (run_fits ms l)).
  Proof.
    assert (forall params, incl params ["e"; "nplanets"; "trend"; "jit"] -> forallb (fun p => str_in p valid_mc_args) params = true) as FB.
    { intros params I. apply forallb_forall. intros x Hx. apply str_in_spec. apply I in Hx. cbn in Hx |- *. tauto. }
    assert (forall fuel s, exists ms, models env ep cp [] s ms /\ forall l, mc stats env fit fuel [] s l = (fst (fit s), fst (run_fits ms l), snd (run_fits ms l))) as NIL.
    { intros f s. exists [s]. split; [constructor|]. intro l. destruct f; cbn [mc]; cbn [forallb negb]; unfold mc_base; cbn [ModelCompProofs.run_fits]; destruct (fit s) as [s' [st|e]]; reflexivity. }
    induction fuel as [|fuel IH]; intros params s L I OK.
    - destruct params; [apply NIL|cbn in L; lia].
    - destruct params as [|p0 ps]; [apply NIL|]. set (params := p0 :: ps) in *.
      assert (params <> []) as NE by discriminate.
      assert (forall l, mc stats env fit (S fuel) params s l =
        if str_in "gp" params then mc_gp stats env (mc stats env fit fuel) (without "gp" params) s l
        else if str_in "jit" params then mc_jit stats env (mc stats env fit fuel) (without "jit" params) s l
        else if str_in "trend" params then mc_trend stats env (mc stats env fit fuel) (without "trend" params) s l
        else if str_in "nplanets" params then mc_nplanets stats env (mc stats env fit fuel) (without "nplanets" params) s l
        else if str_in "e" params then mc_e stats env (mc stats env fit fuel) (without "e" params) s l
        else (s, l, Err ValueError)) as ST.
      { intro l. unfold params. cbn [mc]. rewrite FB by exact I. reflexivity. }
      assert (str_in "gp" params = false) as Egp.
      { apply str_in_false. intro H. apply I in H. cbn in H. intuition discriminate. }
      assert (forall x, In x params -> forall c, okst n c -> exists ms, models env ep cp (without x params) c ms /\
        forall l, on_copy stats (mc stats env fit fuel) (without x params) c l = run_fits ms l) as HR.
      { intros x Hx c Hc. pose proof (without_shorter x params Hx) as Hs.
        destruct (IH (without x params) c) as (ms & M & F); [lia|intros y Hy; apply I; unfold without in Hy; apply filter_In in Hy; tauto|auto|].
        exists ms. split; auto. intro l. unfold on_copy. rewrite F. now destruct (run_fits ms l). }
      assert (forall x cs mss, first_of params x -> stage env ep cp s x cs -> Forall2 (models env ep cp (without x params)) cs mss -> models env ep cp params s (concat mss)) as MK.
      { intros x cs mss H1 H2 H3. apply ms_stage with x cs; auto. rewrite <- without_filter. exact H3. }
      change (exists ms, models env ep cp params s ms /\ forall l, mc stats env fit (S fuel) params s l = (s, fst (run_fits ms l), snd (run_fits ms l))).
      assert (exists x, In x params) as [x0 Hx0] by (exists p0; now left).
      clearbody params.
      destruct (str_in "jit" params) eqn:E1; [apply str_in_spec in E1|apply str_in_false in E1].
      { destruct (mc_jit_spec stats env fit ep cp n EO _ _ (HR _ E1) s OK) as (cs & mss & S1 & S2 & S3). exists (concat mss). split.
        - apply (MK "jit" cs mss); auto. split; auto.
        - intro l. rewrite ST, Egp. apply S3. }
      destruct (str_in "trend" params) eqn:E2; [apply str_in_spec in E2|apply str_in_false in E2].
      { destruct (mc_trend_spec stats env fit ep cp n EO _ _ (HR _ E2) s OK) as (cs & mss & S1 & S2 & S3). exists (concat mss). split.
        - apply (MK "trend" cs mss); auto. split; auto.
        - intro l. rewrite ST, Egp. apply S3. }
      destruct (str_in "nplanets" params) eqn:E3; [apply str_in_spec in E3|apply str_in_false in E3].
      { destruct (mc_nplanets_spec stats env fit ep cp n EO _ _ (HR _ E3) s OK) as (cs & mss & S1 & S2 & S3). exists (concat mss). split.
        - apply (MK "nplanets" cs mss); auto. split; auto. tauto.
        - intro l. rewrite ST, Egp. apply S3. }
      destruct (str_in "e" params) eqn:E4; [apply str_in_spec in E4|apply str_in_false in E4].
      { destruct (mc_e_spec stats env fit ep cp n EO _ _ (HR _ E4) s OK) as (cs & mss & S1 & S2 & S3). exists (concat mss). split.
        - apply (MK "e" cs mss); auto. split; auto. tauto.
        - intro l. rewrite ST, Egp. apply S3. }
      exfalso. apply I in Hx0 as H. cbn in H. decompose [or] H; subst; auto.
  Qed.
End Main.
