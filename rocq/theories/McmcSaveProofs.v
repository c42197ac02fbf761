(** Saving, crashing and resuming (C38). *)
From Coq Require Import Reals String Ascii Arith ZArith Bool Lia Permutation DecimalString List.
From Verif Require Import Py PyFloat PyFacts Params ParamsProofs Mcmc McmcSave McmcProofs.
Import ListNotations.
Open Scope string_scope.

(** ** Keys *)
Fixpoint all_digits (s : string) : bool := match s with EmptyString => true | String c r => is_digit c && all_digits r end.
Lemma uint_digits u : all_digits (NilEmpty.string_of_uint u) = true.
Proof. induction u; cbn; auto. Qed.
Lemma str_nat_digits n : all_digits (str_nat n) = true. Proof. apply uint_digits. Qed.
Lemma digits_split a : forall b x y, all_digits a = true -> all_digits b = true ->
  (a ++ String "_" x)%string = (b ++ String "_" y)%string -> a = b /\ x = y.
Proof.
  induction a as [|c a IH]; intros [|d b] x y Ha Hb H; cbn in *.
  - injection H. auto.
  - injection H as <- _. discriminate Hb.
  - injection H as -> _. discriminate Ha.
  - injection H as -> H. apply andb_true_iff in Ha as [_ Ha]. apply andb_true_iff in Hb as [_ Hb].
    destruct (IH b x y Ha Hb H) as [-> ->]. auto.
Qed.
Lemma key_split i j x y : (str_nat i ++ String "_" x)%string = (str_nat j ++ String "_" y)%string -> i = j /\ x = y.
Proof. intro H. apply digits_split in H as [A B]; try apply str_nat_digits. split; [now apply str_nat_inj|exact B]. Qed.
Lemma key_common i x : ~ In (str_nat i ++ x)%string common_keys.
Proof.
  destruct (str_nat_digit i) as [c [r [-> Hc]]]. cbn. intros H.
  repeat (destruct H as [H|H]; [injection H as <- _; discriminate Hc|]). exact H.
Qed.
Definition three (i : nat) : list string := [k_chain i; k_lnp i; k_acc i].
Definition nine (i : nat) : list string := (three i ++ common_keys)%list.
Definition all_keys (n : nat) : list string := (flat_map three (seq 0 n) ++ common_keys)%list.

Lemma three_key i k : In k (three i) -> exists x, k = (str_nat i ++ String "_" x)%string.
Proof. cbn. intros [<-|[<-|[<-|[]]]]; eexists; reflexivity. Qed.
Lemma three_disj i j k : In k (three i) -> In k (three j) -> i = j.
Proof. intros H1 H2. destruct (three_key i k H1) as [x ->]. destruct (three_key j _ H2) as [y E]. now destruct (key_split _ _ _ _ E). Qed.
Lemma three_common i k : In k (three i) -> ~ In k common_keys.
Proof. intros H. destruct (three_key i k H) as [x ->]. apply key_common. Qed.
Lemma nodup_three i : NoDup (three i).
Proof.
  repeat constructor; cbn; intro H; repeat (destruct H as [H|H]; [apply key_split in H as [_ H]; discriminate|]); exact H.
Qed.
Lemma nodup_app {A} (a b : list A) : NoDup a -> NoDup b -> (forall x, In x a -> ~ In x b) -> NoDup (a ++ b)%list.
Proof.
  induction a as [|x a IH]; intros Ha Hb H; cbn; auto. inversion Ha; subst. constructor.
  - rewrite in_app_iff. intros [Q|Q]; [easy|]. apply (H x); [now left|exact Q].
  - apply IH; auto. intros y Hy. apply H. now right.
Qed.
Lemma nodup_common : NoDup common_keys.
Proof. repeat constructor; cbn; intuition discriminate. Qed.
Lemma nodup_nine i : NoDup (nine i).
Proof. apply nodup_app; [apply nodup_three|apply nodup_common|apply three_common]. Qed.
Lemma in_flat_three k a n : In k (flat_map three (seq a n)) <-> exists i, (a <= i < a + n)%nat /\ In k (three i).
Proof. rewrite in_flat_map. split; intros [i [A B]]; exists i; rewrite in_seq in *; auto. Qed.
Lemma nodup_all n : NoDup (all_keys n).
Proof.
  apply nodup_app; [|apply nodup_common|].
  - generalize 0%nat. induction n as [|n IH]; intro a; [constructor|]. cbn [seq flat_map]. apply nodup_app; [apply nodup_three|apply IH|].
    intros k Hk Q. apply in_flat_three in Q as [j [Hj Hk']]. apply (three_disj a j k Hk) in Hk'. lia.
  - intros k Hk. apply in_flat_three in Hk as [i [_ Hk]]. eapply three_common; eauto.
Qed.
Lemma length_all n : length (all_keys n) = (3 * n + 6)%nat.
Proof.
  unfold all_keys. rewrite app_length. cbn [length common_keys].
  assert (forall a, length (flat_map three (seq a n)) = (3 * n)%nat) as ->; [|lia].
  induction n as [|n IH]; intro a; [reflexivity|]. cbn [seq flat_map]. rewrite app_length, IH. cbn [three length]. lia.
Qed.
Lemma in_all n k : In k (all_keys n) <-> (exists i, (i < n)%nat /\ In k (three i)) \/ In k common_keys.
Proof.
  unfold all_keys. rewrite in_app_iff, in_flat_three. split; (intros [[i [A B]]|A]; [left; exists i|right]); auto; split; auto; lia.
Qed.
Lemma nine_all n i : (i < n)%nat -> incl (nine i) (all_keys n).
Proof. intros H k Hk. unfold nine in Hk. apply in_app_iff in Hk as [Hk|Hk]; apply in_all; eauto. Qed.

(** ** Operations *)
Lemma run_ops_app a b f : run_ops (a ++ b)%list f = bind (run_ops a f) (run_ops b).
Proof. revert f. induction a as [|o a IH]; intro f; cbn; auto. destruct (do_op o f); cbn; auto. Qed.

Lemma run_dels ks : forall f, wf_dict f -> exists f', run_ops (map DelIf ks) f = Ok f' /\ wf_dict f' /\
  (forall k, In k ks -> dget f' k = None) /\ (forall k, ~ In k ks -> dget f' k = dget f k).
Proof.
  induction ks as [|k0 ks IH]; intros f Hf; cbn.
  - exists f. repeat split; auto. intros k [].
  - set (f1 := if dmem f k0 then dremove f k0 else f).
    assert (wf_dict f1) as W1 by (unfold f1; destruct (dmem f k0); [now apply wf_dremove|exact Hf]).
    assert (dget f1 k0 = None) as N1.
    { unfold f1, dmem. destruct (dget f k0) eqn:E; [now apply dget_dremove_same|exact E]. }
    assert (forall k, k <> k0 -> dget f1 k = dget f k) as O1.
    { intros k Hk. unfold f1. destruct (dmem f k0); [now apply dget_dremove_other|reflexivity]. }
    destruct (IH f1 W1) as [f' [R [W [D O]]]]. exists f'. split; [exact R|]. split; [exact W|]. split.
    + intros k [<-|Hk]; [|now apply D]. destruct (in_dec string_dec k0 ks) as [Q|Q]; [now apply D|]. now rewrite O.
    + intros k Hk. rewrite O by tauto. apply O1. intuition.
Qed.
Lemma run_creates kvs : forall f, wf_dict f -> NoDup (map fst kvs) -> (forall k, In k (map fst kvs) -> dget f k = None) ->
  exists f', run_ops (map (fun kv => Create (fst kv) (snd kv)) kvs) f = Ok f' /\ wf_dict f' /\
   (forall k v, In (k, v) kvs -> dget f' k = Some v) /\ (forall k, ~ In k (map fst kvs) -> dget f' k = dget f k).
Proof.
  induction kvs as [|[k0 v0] kvs IH]; intros f Hf Hn Ha.
  - exists f. repeat split; auto. intros k v [].
  - inversion Hn; subst. assert (dmem f k0 = false) as E by (unfold dmem; rewrite Ha; [reflexivity|now left]).
    cbn [map run_ops do_op fst snd]. rewrite E. cbn [bind].
    destruct (IH (Py.dset f k0 v0)) as [f' [R [W [D O]]]]; [now apply wf_dset|auto| |].
    + intros k Hk. rewrite dget_dset_other; [apply Ha; now right|]. intros ->. easy.
    + exists f'. split; [exact R|]. split; [exact W|]. split.
      * intros k v [Q|Q]; [|now apply D]. injection Q as <- <-. rewrite O by auto. apply dget_dset_same.
      * intros k Hk. cbn [map fst] in Hk. rewrite O by (intro; apply Hk; now right). apply dget_dset_other. intros ->. apply Hk. now left.
Qed.

(** the datasets created for one sampler *)
Definition entries (m : mstate) (i : nat) (s : sampler) : list (string * dset) :=
  [(k_chain i, DPos (map s_pos (sp_chain s))); (k_lnp i, DLnp (map s_lnp (sp_chain s))); (k_acc i, DAcc (sp_acc s));
   ("crit", DF [m_minafactor m; m_maxarchange m; m_mintz m; m_maxgr m]); ("autosample", DN (m_autosamples m));
   ("automin", DF (m_automin m)); ("automean", DF (m_automean m)); ("automax", DF (m_automax m));
   ("burned", DN [if m_burned m then m_nburn m else 0%nat])].
Lemma creates_entries m i s : sampler_creates m i s = map (fun kv => Create (fst kv) (snd kv)) (entries m i s).
Proof. reflexivity. Qed.
Lemma entries_keys m i s : map fst (entries m i s) = nine i. Proof. reflexivity. Qed.

Lemma run_sampler m i s f : wf_dict f -> exists f', run_ops (sampler_ops m i s) f = Ok f' /\ wf_dict f' /\
  (forall k v, In (k, v) (entries m i s) -> dget f' k = Some v) /\ (forall k, ~ In k (nine i) -> dget f' k = dget f k).
Proof.
  intro Hf. unfold sampler_ops, sampler_dels. rewrite run_ops_app. destruct (run_dels (nine i) f Hf) as [f1 [R1 [W1 [D1 O1]]]].
  change ([k_chain i; k_lnp i; k_acc i] ++ common_keys)%list with (nine i). rewrite R1. cbn [bind]. rewrite creates_entries.
  destruct (run_creates (entries m i s) f1 W1) as [f2 [R2 [W2 [D2 O2]]]]; rewrite ?entries_keys.
  - apply nodup_nine.
  - exact D1.
  - exists f2. rewrite entries_keys in O2. split; [exact R2|]. split; [exact W2|]. split; [exact D2|]. intros k Hk. rewrite O2, O1; auto.
Qed.

(** a crash strictly inside the update of one sampler leaves a key out *)
Lemma crash_inside m i s f j : wf_dict f -> (1 <= j < 18)%nat ->
  exists f', run_ops (firstn j (sampler_ops m i s)) f = Ok f' /\ wf_dict f' /\
    (exists k, In k (nine i) /\ dget f' k = None) /\ (forall k, ~ In k (nine i) -> dget f' k = dget f k).
Proof.
  intros Hf Hj. unfold sampler_ops, sampler_dels. change ([k_chain i; k_lnp i; k_acc i] ++ common_keys)%list with (nine i).
  rewrite firstn_app, run_ops_app, firstn_map, map_length. change (length (nine i)) with 9%nat.
  destruct (run_dels (firstn j (nine i)) f Hf) as [f1 [R1 [W1 [D1 O1]]]]. rewrite R1. cbn [bind]. rewrite creates_entries, firstn_map.
  assert (forall k, ~ In k (nine i) -> ~ In k (firstn j (nine i))) as NF.
  { intros k Hk Q. apply Hk. rewrite <- (firstn_skipn j (nine i)). apply in_app_iff. now left. }
  destruct (Nat.le_gt_cases j 9) as [H9|H9].
  - replace (j - 9)%nat with 0%nat by lia. cbn [firstn map run_ops]. exists f1. split; [reflexivity|]. split; [exact W1|]. split.
    + exists (k_chain i). split; [now left|]. apply D1. destruct j; [lia|]. now left.
    + intros k Hk. apply O1. now apply NF.
  - assert (firstn j (nine i) = nine i) as E by (apply firstn_all2; change (length (nine i)) with 9%nat; lia). rewrite E in *.
    assert (incl (map fst (firstn (j - 9) (entries m i s))) (firstn 8 (nine i))) as I8.
    { rewrite <- firstn_map, entries_keys. intros k Hk. assert (exists d, (8 = (j - 9) + d)%nat) as [d Ed] by (exists (17 - j)%nat; lia).
      rewrite Ed. clear -Hk. revert Hk. generalize (nine i). induction (j - 9)%nat as [|n IH]; intros [|x l] Hk; cbn in *; try easy. destruct Hk as [<-|Hk]; [now left|right; now apply IH]. }
    assert (forall k, In k (firstn 8 (nine i)) -> In k (nine i)) as F8.
    { intros k Q. rewrite <- (firstn_skipn 8 (nine i)). apply in_app_iff. now left. }
    destruct (run_creates (firstn (j - 9) (entries m i s)) f1 W1) as [f2 [R2 [W2 [D2 O2]]]].
    + rewrite <- firstn_map, entries_keys. pose proof (nodup_nine i) as N. rewrite <- (firstn_skipn (j - 9) (nine i)) in N.
      revert N. generalize (firstn (j - 9) (nine i)) (skipn (j - 9) (nine i)). clear. induction l as [|x l IH]; intros l' N; [constructor|].
      inversion N; subst. constructor; [|eapply IH; eauto]. intro Q. apply H1. apply in_app_iff. now left.
    + intros k Hk. apply D1, F8, I8, Hk.
    + exists f2. split; [exact R2|]. split; [exact W2|]. split.
      * exists "burned". split; [unfold nine; apply in_app_iff; right; cbn; tauto|]. rewrite O2.
        -- apply D1. unfold nine. apply in_app_iff. right. cbn. tauto.
        -- intro Q. apply I8 in Q. pose proof (nodup_nine i) as N. 
           change (nine i) with (firstn 8 (nine i) ++ ["burned"])%list in N. apply NoDup_remove_2 in N. apply N. now rewrite app_nil_r.
      * intros k Hk. rewrite O2, O1; auto.
Qed.

Lemma dmem_keys (f : h5) k : dmem f k = true <-> In k (dkeys f).
Proof.
  unfold dmem. destruct (dget f k) eqn:E; split; intro H; auto; try discriminate; [eapply dget_key; eauto|].
  apply dget_none in E. easy.
Qed.
Lemma keys_incl_length (f : h5) n : wf_dict f -> incl (dkeys f) (all_keys n) -> (length f <= 3 * n + 6)%nat.
Proof.
  intros Hf H. rewrite <- length_all. assert (length (dkeys f) = length f) as <- by apply map_length.
  now apply NoDup_incl_length.
Qed.
Lemma missing_key_length (f : h5) n k : wf_dict f -> incl (dkeys f) (all_keys n) -> In k (all_keys n) -> dget f k = None ->
  (length f < 3 * n + 6)%nat.
Proof.
  intros Hf H Hk E. rewrite <- length_all. assert (length (dkeys f) = length f) as <- by apply map_length.
  assert (length (k :: dkeys f) <= length (all_keys n))%nat as L; [|cbn in L; lia].
  apply NoDup_incl_length; [constructor; [now apply dget_none|exact Hf]|]. intros x [<-|Hx]; auto.
Qed.
Lemma full_keys_length (f : h5) n : wf_dict f -> (forall k, In k (dkeys f) <-> In k (all_keys n)) -> length f = (3 * n + 6)%nat.
Proof.
  intros Hf H. rewrite <- length_all. assert (length (dkeys f) = length f) as <- by apply map_length.
  apply Permutation_length, NoDup_Permutation; auto. apply nodup_all.
Qed.
Lemma dget_incl (f f' : h5) i n : incl (dkeys f) (all_keys n) -> (i < n)%nat -> (forall k, ~ In k (nine i) -> dget f' k = dget f k) ->
  incl (dkeys f') (all_keys n).
Proof.
  intros H Hi E k Hk. destruct (in_dec string_dec k (nine i)) as [Q|Q]; [now apply (nine_all n i Hi)|].
  apply H. destruct (dget f' k) eqn:G; [|apply dget_none in G; easy]. rewrite E in G by auto. eapply dget_key; eauto.
Qed.

(** ** A complete file *)
Record holds_run (f : h5) (m : mstate) (sps : list sampler) : Prop := {
  hr_wf : wf_dict f;
  hr_keys : forall k, In k (dkeys f) <-> In k (all_keys (length sps));
  hr_common : forall k v i s, In (k, v) (entries m i s) -> In k common_keys -> dget f k = Some v;
  hr_sampler : forall i s k v, nth_error sps i = Some s -> In (k, v) (entries m i s) -> In k (three i) -> dget f k = Some v }.

(** files in which only datasets of [n] ensembles occur; the empty file is one *)
Definition clean (f : h5) (n : nat) : Prop := wf_dict f /\ incl (dkeys f) (all_keys n).

Lemma entry_three m i s k v : In (k, v) (entries m i s) -> In k (three i) \/ In k common_keys.
Proof. intro H. apply in_app_iff. change (In k (nine i)). rewrite <- (entries_keys m i s). now apply (in_map fst) in H. Qed.
Lemma entry_common m i s i' s' k v : In (k, v) (entries m i s) -> In k common_keys -> In (k, v) (entries m i' s').
Proof.
  intros H Hc. cbn in H. destruct H as [H|[H|[H|H]]].
  1-3: injection H as <- _; exfalso; revert Hc; apply key_common.
  cbn. tauto.
Qed.
Lemma nine_entry m i s k : In k (nine i) -> exists v, In (k, v) (entries m i s).
Proof. rewrite <- (entries_keys m i s). intro H. apply in_map_iff in H as [[k' v] [<- H]]. eauto. Qed.
Lemma entry_same_three m i s k v m' : In (k, v) (entries m i s) -> In k (three i) -> In (k, v) (entries m' i s).
Proof.
  intros H Hk. cbn in H. destruct H as [H|[H|[H|H]]]; [cbn; tauto..|].
  exfalso. apply (three_common i k Hk). cbn in H. cbn.
  repeat (destruct H as [H|H]; [injection H as <- _; tauto|]). destruct H.
Qed.

(** the effect of saving the samplers i, i+1, ... *)
Lemma run_save_from m sps : forall i f n, clean f n -> (i + length sps <= n)%nat ->
  exists f', run_ops (save_from m i sps) f = Ok f' /\ clean f' n /\
   (sps <> [] -> forall k v j s, In (k, v) (entries m j s) -> In k common_keys -> dget f' k = Some v) /\
   (forall t s k v, nth_error sps t = Some s -> In (k, v) (entries m (i + t) s) -> In k (three (i + t)) -> dget f' k = Some v) /\
   (forall k, ~ In k common_keys -> (forall t, (t < length sps)%nat -> ~ In k (three (i + t))) -> dget f' k = dget f k).
Proof.
  induction sps as [|s sps IH]; intros i f n [Hf Hk] Hn; cbn [save_from].
  - exists f. split; [reflexivity|]. split; [split; auto|]. split; [easy|]. split; [intros []; easy|auto].
  - rewrite run_ops_app. destruct (run_sampler m i s f Hf) as [f1 [R1 [W1 [D1 O1]]]]. rewrite R1. cbn [bind].
    cbn [length] in Hn.
    assert (clean f1 n) as C1 by (split; [exact W1|eapply dget_incl; eauto; lia]).
    destruct (IH (S i) f1 n C1 ltac:(lia)) as [f2 [R2 [C2 [DC [DS O2]]]]]. exists f2. split; [exact R2|]. split; [exact C2|]. split; [|split].
    + intros _ k v j s' He Hc. destruct sps as [|s1 sps'].
      * cbn in R2. injection R2 as <-. apply D1. eapply entry_common; eauto.
      * eapply DC; eauto. discriminate.
    + intros t s' k v Ht He H3. destruct t as [|t].
      * cbn in Ht. injection Ht as ->. rewrite Nat.add_0_r in *. rewrite O2; [now apply D1|now apply three_common with i|].
        intros t _ Q. apply (three_disj i (S i + t) k H3) in Q. lia.
      * cbn in Ht. rewrite Nat.add_succ_r in *. apply (DS t s' k v Ht He H3).
    + intros k Hc Ht. cbn [length] in Ht. rewrite O2; auto.
      * apply O1. unfold nine. rewrite in_app_iff. intros [Q|Q]; [|easy]. apply (Ht 0%nat); [lia|]. now rewrite Nat.add_0_r.
      * intros t Hlt. replace (S i + t)%nat with (i + S t)%nat by lia. apply Ht. lia.
Qed.

Lemma keys_full (f : h5) m sps : clean f (length sps) -> 
  (forall k v i s, In (k, v) (entries m i s) -> In k common_keys -> dget f k = Some v) ->
  (forall i s k v, nth_error sps i = Some s -> In (k, v) (entries m i s) -> In k (three i) -> dget f k = Some v) ->
  holds_run f m sps.
Proof.
  intros [W I] HC HS. split; auto. intro k. split; [apply I|]. intro Hk. apply in_all in Hk as [[i [Hi Hk]]|Hk].
  - destruct (nth_error sps i) as [s|] eqn:E; [|apply nth_error_None in E; lia].
    destruct (nine_entry m i s k) as [v Hv]; [unfold nine; apply in_app_iff; now left|].
    eapply dget_key. eapply HS; eauto.
  - destruct (nine_entry m 0 new_sampler k) as [v Hv]; [unfold nine; apply in_app_iff; now right|].
    eapply dget_key. eapply HC; eauto.
Qed.

(** a complete save *)
Lemma save_complete m f : m_samplers m <> [] -> clean f (length (m_samplers m)) ->
  exists f', save m f = Ok f' /\ holds_run f' m (m_samplers m).
Proof.
  intros Hne Hc. destruct (run_save_from m (m_samplers m) 0 f _ Hc ltac:(lia)) as [f' [R [C [DC [DS O]]]]].
  exists f'. split; [exact R|]. apply keys_full; [exact C|apply DC; exact Hne|exact DS].
Qed.
(** a save interrupted between two samplers *)
Lemma save_boundary m1 m2 sps1 f t : holds_run f m1 sps1 -> (1 <= t <= length sps1)%nat -> length (m_samplers m2) = length sps1 ->
  exists f', run_ops (save_from m2 0 (firstn t (m_samplers m2))) f = Ok f' /\
    holds_run f' m2 (firstn t (m_samplers m2) ++ skipn t sps1)%list.
Proof.
  intros H Ht Hl. assert (length (firstn t (m_samplers m2)) = t) as Lf by (rewrite firstn_length; lia).
  assert (length (firstn t (m_samplers m2) ++ skipn t sps1)%list = length sps1) as La by (rewrite app_length, skipn_length; lia).
  destruct (run_save_from m2 (firstn t (m_samplers m2)) 0 f (length sps1)) as [f' [R [C [DC [DS O]]]]].
  - split; [apply H|]. intros k Hk. now apply (hr_keys _ _ _ H).
  - lia.
  - exists f'. split; [exact R|]. apply keys_full.
    + rewrite La. exact C.
    + apply DC. intro Q. rewrite Q in Lf. cbn in Lf. lia.
    + intros i s k v Hi He H3. destruct (Nat.lt_ge_cases i t) as [Q|Q].
      * rewrite nth_error_app1 in Hi by lia. apply (DS i s k v Hi He H3).
      * rewrite nth_error_app2 in Hi by lia. rewrite O.
        -- apply (hr_sampler _ _ _ H i s k v); auto; [|eapply entry_same_three; eauto].
           rewrite Lf in Hi. rewrite <- Hi. clear -Q. 
           assert (forall (l : list sampler) t i, (t <= i)%nat -> nth_error l i = nth_error (skipn t l) (i - t)) as G; [|now apply G].
           induction l as [|x l IH]; intros [|t'] [|i'] Hq; cbn; auto; try lia; try (now destruct (i' - t')%nat). apply IH. lia.
        -- now apply three_common with i.
        -- intros t' Ht' Q'. cbn [Nat.add] in Q'. apply (three_disj i t' k H3) in Q'. lia.
Qed.

(** the list of operations, cut anywhere *)
Lemma ops_length m i s : length (sampler_ops m i s) = 18%nat. Proof. reflexivity. Qed.
Lemma save_prefix m : forall sps i n, (n < 18 * length sps)%nat ->
  exists t j s, n = (18 * t + j)%nat /\ (j < 18)%nat /\ nth_error sps t = Some s /\
    firstn n (save_from m i sps) = (save_from m i (firstn t sps) ++ firstn j (sampler_ops m (i + t) s))%list.
Proof.
  induction sps as [|s sps IH]; intros i n Hn; [cbn in Hn; lia|]. cbn [length] in Hn.
  destruct (Nat.lt_ge_cases n 18) as [H|H].
  - exists 0%nat, n, s. split; [lia|]. split; [exact H|]. split; [reflexivity|]. cbn [save_from firstn app].
    rewrite firstn_app, ops_length. replace (n - 18)%nat with 0%nat by lia. now rewrite firstn_O, app_nil_r, Nat.add_0_r.
  - destruct (IH (S i) (n - 18)%nat ltac:(lia)) as [t [j [s' [E [Hj [Hs Hf]]]]]].
    exists (S t), j, s'. split; [lia|]. split; [exact Hj|]. split; [exact Hs|]. cbn [save_from firstn].
    rewrite firstn_app, ops_length, Hf. rewrite firstn_all2 by (rewrite ops_length; lia). rewrite <- app_assoc. do 2 f_equal.
    now rewrite Nat.add_succ_r.
Qed.

(** ** Loading *)
Lemma resume_count g f c m : resume g f c = Ok m -> length f = (3 * g_ensembles g + 6)%nat.
Proof.
  unfold resume, check_file. intro H. apply bind_ok in H as [l [_ H]]. apply bind_ok in H as [u [H _]].
  destruct (Nat.eqb_spec (length f) (3 * g_ensembles g + 6)); [auto|discriminate].
Qed.

Lemma map_res_ok {A B} (f : A -> res B) (h : A -> B) l : (forall x, In x l -> f x = Ok (h x)) -> map_res f l = Ok (map h l).
Proof.
  induction l as [|x l IH]; intro H; auto. cbn [map_res map]. rewrite H by now left. cbn [bind]. rewrite IH by (intros; apply H; now right). reflexivity.
Qed.
Lemma map_nth_seq {A B} (h : A -> B) (l : list A) d : map (fun i => h (nth i l d)) (seq 0 (length l)) = map h l.
Proof.
  induction l as [|x l IH]; auto. cbn [length seq map]. f_equal. rewrite <- seq_shift, map_map. exact IH.
Qed.

Definition loaded_of (m : mstate) (sps : list sampler) : loaded :=
  mkL (map (fun s => map s_pos (sp_chain s)) sps) (map (fun s => map s_lnp (sp_chain s)) sps) (map sp_acc sps)
      (if m_burned m then m_nburn m else 0%nat) [m_minafactor m; m_maxarchange m; m_mintz m; m_maxgr m]
      (m_autosamples m) (m_automin m) (m_automean m) (m_automax m).

Lemma load_holds f m sps : holds_run f m sps -> load f = Ok (loaded_of m sps).
Proof.
  intro H. assert (length f = (3 * length sps + 6)%nat) as L by (apply full_keys_length; [apply H|apply (hr_keys _ _ _ H)]).
  assert (forall k v, In (k, v) (entries m 0 new_sampler) -> In k common_keys -> dget f k = Some v) as HC by (intros; eapply (hr_common _ _ _ H); eauto).
  unfold load, get, dget_res.
  rewrite (HC "burned" _ ltac:(cbn; do 8 right; left; reflexivity)) by (cbn; tauto). cbn [bind as_n].
  cbn [item nth_error bind].
  rewrite (HC "crit" _ ltac:(cbn; do 3 right; left; reflexivity)) by (cbn; tauto). cbn [bind as_f item nth_error].
  rewrite (HC "autosample" _ ltac:(cbn; do 4 right; left; reflexivity)) by (cbn; tauto). cbn [bind as_n].
  rewrite (HC "automin" _ ltac:(cbn; do 5 right; left; reflexivity)) by (cbn; tauto). cbn [bind as_f].
  rewrite (HC "automean" _ ltac:(cbn; do 6 right; left; reflexivity)) by (cbn; tauto). cbn [bind as_f].
  rewrite (HC "automax" _ ltac:(cbn; do 7 right; left; reflexivity)) by (cbn; tauto). cbn [bind as_f].
  rewrite L. replace ((3 * length sps + 6 - 6) / 3)%nat with (length sps).
  2:{ replace (3 * length sps + 6 - 6)%nat with (length sps * 3)%nat by lia. now rewrite Nat.div_mul. }
  rewrite (map_res_ok _ (fun i => (fun s => (map s_pos (sp_chain s), map s_lnp (sp_chain s), sp_acc s)) (nth i sps new_sampler))).
  - cbv beta. rewrite (map_nth_seq (fun s => (map s_pos (sp_chain s), map s_lnp (sp_chain s), sp_acc s)) sps new_sampler). cbn [bind].
    rewrite !map_map. cbn [fst snd]. reflexivity.
  - intros i Hi. apply in_seq in Hi.
    destruct (nth_error sps i) as [s|] eqn:E; [|apply nth_error_None in E; lia]. rewrite (nth_error_nth _ _ new_sampler E).
    rewrite (hr_sampler _ _ _ H i s (k_chain i) _ E (or_introl eq_refl)) by (cbn; tauto). cbn [bind as_pos].
    rewrite (hr_sampler _ _ _ H i s (k_lnp i) _ E (or_intror (or_introl eq_refl))) by (cbn; tauto). cbn [bind as_lnp].
    rewrite (hr_sampler _ _ _ H i s (k_acc i) _ E (or_intror (or_intror (or_introl eq_refl)))) by (cbn; tauto). reflexivity.
Qed.

Lemma zip_map l : zip_samples (map s_pos l) (map s_lnp l) = l.
Proof. induction l as [|[] l IH]; cbn; congruence. Qed.

(** walkers and parameters of the first stored sample *)
Definition shape_of (s : sampler) : nat * nat := shape12 (map s_pos (sp_chain s)).
Definition restored (sps : list sampler) (calls : nat) : list sampler := map (fun s => mkSp (sp_chain s) (sp_acc s) calls) sps.

Lemma check_holds g f m sps s0 : holds_run f m sps -> nth_error sps 0 = Some s0 ->
  check_file g f = if (length sps =? g_ensembles g)%nat && (fst (shape_of s0) =? nw_of g)%nat && (snd (shape_of s0) =? g_ndim g)%nat
                   then Ok tt else Err ValueError.
Proof.
  intros H E. assert (length f = (3 * length sps + 6)%nat) as L by (apply full_keys_length; [apply H|apply (hr_keys _ _ _ H)]).
  unfold check_file, get, dget_res. rewrite L.
  destruct (Nat.eqb_spec (length sps) (g_ensembles g)) as [Q|Q].
  - rewrite Q, Nat.eqb_refl. cbn [negb andb].
    rewrite (hr_sampler _ _ _ H 0 s0 (k_chain 0) _ E (or_introl eq_refl)) by (cbn; tauto). cbn [bind as_pos].
    unfold shape_of. destruct (shape12 _) as [w d]. cbn [fst snd]. destruct (d =? g_ndim g)%nat, (w =? nw_of g)%nat; reflexivity.
  - destruct (Nat.eqb_spec (3 * length sps + 6) (3 * g_ensembles g + 6)); [lia|]. reflexivity.
Qed.

Lemma resume_holds g f m sps c : holds_run f m sps -> length sps = g_ensembles g ->
  (exists s0, nth_error sps 0 = Some s0 /\ shape_of s0 = (nw_of g, g_ndim g)) -> Forall (fun s => sp_chain s <> []) sps ->
  exists inits, resume g f c = Ok (mkM None (m_autosamples m) (m_automean m) (m_automin m) (m_automax m) false (restored sps c) inits None
      (if m_burned m then m_nburn m else 0%nat) (if m_burned m then m_nburn m else 0%nat)
      (negb (Nat.eqb (if m_burned m then m_nburn m else 0%nat) 0)) false 0 (m_minafactor m) (m_maxarchange m) (Fin (-1)) PInf) /\
    map_res last_sample (restored sps c) = Ok inits.
Proof.
  intros H Hl [s0 [E0 S0]] Hne. unfold resume. rewrite (load_holds f m sps H). cbn [bind].
  rewrite (check_holds g f m sps s0 H E0), S0, Hl, !Nat.eqb_refl. cbn [fst snd andb bind].
  unfold loaded_of. cbn [l_chains l_lnps l_accs l_crit l_burned l_autosample l_automean l_automin l_automax].
  assert (forall {B} (h : sampler -> B) i s, nth_error sps i = Some s -> item (map h sps) i = Ok (h s)) as IT.
  { intros B h i s E. unfold item. now rewrite nth_error_map, E. }
  rewrite Forall_forall in Hne.
  rewrite (map_res_ok _ (fun i => (fun s => map s_pos (sp_chain s)) (nth i sps new_sampler))).
  2:{ intros i Hi. apply in_seq in Hi. destruct (nth_error sps i) as [s|] eqn:E; [|apply nth_error_None in E; lia].
      rewrite (IT _ _ i s E), (nth_error_nth _ _ new_sampler E). reflexivity. }
  rewrite <- Hl. cbv beta. rewrite (map_nth_seq (fun s => map s_pos (sp_chain s)) sps new_sampler). cbn [bind].
  assert (exists inits, map_res last_pos (map (fun s => map s_pos (sp_chain s)) sps) = Ok inits /\ map_res last_sample (restored sps c) = Ok inits) as [inits [I1 I2]].
  { clear - Hne. induction sps as [|s r IH]; [exists []; auto|]. destruct IH as [l [A B]]; [intros; apply Hne; now right|].
    pose proof (Hne s (or_introl eq_refl)) as Hs. cbn [map map_res restored]. fold (restored r c). rewrite A, B.
    unfold last_pos, last_sample. cbn [sp_chain]. rewrite <- map_rev. destruct (rev (sp_chain s)) as [|x y] eqn:E.
    - exfalso. apply Hs. rewrite <- (rev_involutive (sp_chain s)), E. reflexivity.
    - cbn. exists (s_pos x :: l). auto. }
  rewrite I1. cbn [bind].
  rewrite (map_res_ok _ (fun i => (fun s => mkSp (sp_chain s) (sp_acc s) c) (nth i sps new_sampler))).
  2:{ intros i Hi. apply in_seq in Hi. destruct (nth_error sps i) as [s|] eqn:E; [|apply nth_error_None in E; lia].
      rewrite !(IT _ _ i s E), (nth_error_nth _ _ new_sampler E). cbn [bind]. now rewrite zip_map. }
  cbv beta. rewrite (map_nth_seq (fun s => mkSp (sp_chain s) (sp_acc s) c) sps new_sampler). cbn [bind item nth_error].
  exists inits. split; [reflexivity|exact I2].
Qed.
