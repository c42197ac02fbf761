(** Proofs for C64. *)
From Coq Require Import String Ascii Arith Bool Lia List Permutation.
From Verif Require Import Py PyFacts Params Basis Likelihood DecorrSpec DecorrProofs ParTable ParTableSpec.
Import ListNotations.
Open Scope string_scope.

Lemma dmem_dget {A} (d : dict A) k : dmem d k = true <-> exists v, dget d k = Some v.
Proof. unfold dmem. destruct (dget d k); split; intros; eauto; try easy. now destruct H. Qed.

Lemma butlast_last s : s <> "" -> exists c, s = butlast s ++ String c "".
Proof.
  induction s as [|a s IH]; intro H; [easy|]. destruct s as [|b s].
  - exists a. reflexivity.
  - destruct IH as [c E]; [easy|]. exists c. change (butlast (String a (String b s))) with (String a (butlast (String b s))).
    cbn. f_equal. exact E.
Qed.
Lemma butlast_snoc s c : butlast (s ++ String c "") = s.
Proof.
  induction s as [|a s IH]; [reflexivity|]. destruct s as [|b s]; [reflexivity|].
  change (String a (butlast (String b s ++ String c "")) = String a (String b s)). now rewrite IH.
Qed.
Lemma key_nonempty p n : key p n <> "".
Proof.
  unfold key. destruct p; [|easy]. cbn. unfold str_nat, Nat.to_uint.
  assert (forall l acc, acc <> Decimal.Nil -> Nat.to_little_uint l acc <> Decimal.Nil) as H.
  { induction l; intros acc Ha; cbn; auto. apply IHl. destruct acc; easy. }
  specialize (H n Decimal.zero ltac:(easy)).
  assert (forall u acc, u <> Decimal.Nil \/ acc <> Decimal.Nil -> Decimal.revapp u acc <> Decimal.Nil) as R.
  { induction u; intros acc Ha; cbn; try (apply IHu; right; easy). destruct Ha; easy. }
  unfold Decimal.rev. specialize (R (Nat.to_little_uint n Decimal.zero) Decimal.Nil (or_introl H)).
  destruct (Decimal.revapp (Nat.to_little_uint n Decimal.zero) Decimal.Nil); try easy.
Qed.
Lemma key_one p : key p 1 = p ++ "1".
Proof. reflexivity. Qed.

Section Rows.
  Variables (C Q T N : Type).
  Variables (chains : dict C) (quant : dict Q) (maxparams : dict N) (latex units : dict string) (suffixes : list string).
  Variables (geterr : C -> res T) (of_quantiles : Q -> T) (show : T -> N -> option Q -> res string).
  Notation row_of := (row_of C Q T N chains quant maxparams latex geterr of_quantiles show).
  Notation add_row := (add_row C Q T N chains quant maxparams latex units suffixes geterr of_quantiles show).
  Notation table_rows := (table_rows C Q T N chains quant maxparams latex units suffixes geterr of_quantiles show).
  Notation own_row := (own_row C Q T N chains quant maxparams latex geterr of_quantiles show).
  Notation listed := (listed N maxparams latex).

  Definition shown_key (par : string) : string := if dmem quant par then par else butlast par.

  Lemma row_own par u r : row_of par u = Ok r -> own_row (shown_key par) u r.
  Proof.
    unfold ParTable.row_of. fold (shown_key par). set (k := shown_key par). intro E.
    destruct (String.eqb_spec u "radians") as [Hu|Hu].
    - unfold dget_res in E. destruct (dget chains k) as [c|] eqn:Ec; [|discriminate]. cbn [bind] in E.
      destruct (geterr c) as [t|] eqn:Et; [|discriminate]. cbn [bind] in E.
      destruct (dget maxparams k) as [m|] eqn:Em; [|discriminate]. cbn [bind] in E.
      destruct (dget latex k) as [x|] eqn:Ex; [|discriminate]. cbn [bind] in E.
      destruct (show t m (dget quant k)) as [s|] eqn:Es; [|discriminate]. cbn [bind] in E. injection E as <-.
      repeat split; auto. exists t, m. repeat split; auto. left. eauto.
    - unfold dget_res in E. destruct (dget quant k) as [q|] eqn:Eq; [|discriminate]. cbn [bind] in E.
      destruct (dget maxparams k) as [m|] eqn:Em; [|discriminate]. cbn [bind] in E.
      destruct (dget latex k) as [x|] eqn:Ex; [|discriminate]. cbn [bind] in E.
      destruct (show (of_quantiles q) m (Some q)) as [s|] eqn:Es; [|discriminate]. cbn [bind] in E. injection E as <-.
      repeat split; auto. exists (of_quantiles q), m. rewrite Eq. repeat split; auto. right. eauto.
  Qed.

  Definition pairs (names : list string) (n : nat) : list (string * nat) := flat_map (fun i => map (fun p => (p, i)) names) (seq 1 n).
  Lemma in_pairs names n p i : In (p, i) (pairs names n) <-> In p names /\ 1 <= i <= n.
  Proof.
    unfold pairs. rewrite in_flat_map. split.
    - intros (j & Hj & H). apply in_map_iff in H as (x & [= -> ->] & H). apply in_seq in Hj. split; [auto|lia].
    - intros [H L]. exists i. split; [apply in_seq; lia|]. apply in_map_iff. eauto.
  Qed.
  Lemma pairs_numbered names n : map (fun pn => key (fst pn) (snd pn)) (pairs names n) = numbered names n.
  Proof.
    unfold pairs, numbered. induction (seq 1 n) as [|i l IH]; [reflexivity|]. cbn [flat_map]. rewrite map_app, IH, map_map. reflexivity.
  Qed.

  Lemma rows_from l : forall acc rows, for_each l add_row acc = Ok rows -> forall r, In r rows ->
    In r acc \/ exists pn, In pn l /\ row_of (key (fst pn) (snd pn)) (unit_of units suffixes (fst pn) (key (fst pn) (snd pn))) = Ok r.
  Proof.
    induction l as [|pn l IH]; intros acc rows E r Hr; [injection E as <-; auto|].
    cbn [for_each] in E. unfold ParTable.add_row at 1 in E.
    destruct (row_of (key (fst pn) (snd pn)) _) as [x|e] eqn:Er.
    - cbn [bind] in E. destruct (IH _ _ E r Hr) as [H|(q & H1 & H2)].
      + apply in_app_iff in H as [H|[<-|[]]]; [auto|]. right. exists pn. split; [now left|exact Er].
      + right. exists q. split; [now right|exact H2].
    - destruct e; try discriminate. cbn [bind] in E. destruct (IH _ _ E r Hr) as [H|(q & H1 & H2)]; [auto|]. right. exists q. split; [now right|exact H2].
  Qed.

  Theorem rows_own names n rows r : table_rows names n = Ok rows -> In r rows ->
    exists p i, In p names /\ 1 <= i <= n /\ own_row (w_key r) (unit_of units suffixes p (key p i)) r /\
      ((In (key p i) (dkeys quant) /\ w_key r = key p i) \/ (~ In (key p i) (dkeys quant) /\ exists c, key p i = w_key r ++ String c "")).
  Proof.
    intros E Hr. destruct (rows_from _ _ _ E r Hr) as [[]|([p i] & H1 & H2)]. cbn [fst snd] in H2.
    change (In (p, i) (pairs names n)) in H1. apply in_pairs in H1 as [Hp Hi]. apply row_own in H2.
    exists p, i. split; [exact Hp|]. split; [exact Hi|].
    assert (w_key r = shown_key (key p i)) as K by apply H2. rewrite K. split; [exact H2|].
    unfold shown_key. unfold dmem. destruct (dget quant (key p i)) eqn:D.
    - left. split; [eapply dget_key; eauto|reflexivity].
    - right. split; [now apply dget_none|]. apply butlast_last, key_nonempty.
  Qed.

  (** success and the exact keys *)
  Hypothesis same_keys : forall k, dmem quant k = dmem chains k.
  Hypothesis total : formats C Q T N geterr show.
  Lemma row_step par u : (dmem quant (shown_key par) && listed (shown_key par) = true /\ exists r, row_of par u = Ok r /\ w_key r = shown_key par) \/
    (dmem quant (shown_key par) && listed (shown_key par) = false /\ exists k, row_of par u = Err (KeyError k)).
  Proof.
    unfold ParTable.row_of. fold (shown_key par). set (k := shown_key par). pose proof (same_keys k) as SK.
    destruct total as [G S]. unfold ParTableSpec.listed. unfold dget_res. unfold dmem in *.
    destruct (dget quant k) as [q|].
    - destruct (dget chains k) as [c|]; [|discriminate]. destruct (G c) as [t Et].
      assert (exists t', (if String.eqb u "radians" then do c0 <- Ok c; geterr c0 else do q0 <- Ok q; Ok (of_quantiles q0)) = Ok t') as [t' E'].
      { destruct (String.eqb u "radians"); cbn [bind]; eauto. }
      rewrite E'. cbn [bind]. destruct (dget maxparams k) as [m|]; [|right; cbn; eauto]. cbn [bind].
      destruct (dget latex k) as [x|]; [|right; cbn; eauto]. cbn [bind].
      destruct (S t' m (Some q)) as [s Es]. rewrite Es. left. cbn. split; eauto.
    - destruct (dget chains k) as [c|]; [discriminate|]. right. split; [reflexivity|].
      destruct (String.eqb u "radians"); cbn; eauto.
  Qed.
  Lemma rows_keys l : forall acc, exists rows, for_each l add_row acc = Ok rows /\
    map w_key rows = (map w_key acc ++ filter (fun k => dmem quant k && listed k) (map (fun pn => shown_key (key (fst pn) (snd pn))) l))%list.
  Proof.
    induction l as [|pn l IH]; intro acc; cbn [for_each map filter].
    - exists acc. rewrite app_nil_r. auto.
    - unfold ParTable.add_row at 1. destruct (row_step (key (fst pn) (snd pn)) (unit_of units suffixes (fst pn) (key (fst pn) (snd pn)))) as [(B & r & Er & K)|(B & k & Er)]; rewrite Er, B; cbn [bind].
      + destruct (IH (acc ++ [r])%list) as (rows & E & M). exists rows. split; [exact E|]. rewrite M, map_app, <- app_assoc. cbn. now rewrite K.
      + apply IH.
  Qed.
  Theorem planet_rows names n : (forall k, In k (numbered names n) -> In k (dkeys quant)) ->
    exists rows, table_rows names n = Ok rows /\ map w_key rows = filter listed (numbered names n).
  Proof.
    intro H. destruct (rows_keys (pairs names n) []) as (rows & E & M). exists rows. split; [exact E|]. rewrite M. cbn [map app].
    rewrite <- (pairs_numbered names n) in *. 
    clear E M. revert H. induction (pairs names n) as [|pn l IH]; intro H; [reflexivity|]. cbn [map filter].
    assert (dmem quant (key (fst pn) (snd pn)) = true) as D.
    { apply dmem_dget. apply dget_some_key. apply H. now left. }
    unfold shown_key at 1 2 3. rewrite D, D. cbn [andb]. rewrite IH; [reflexivity|]. intros k Hk. apply H. now right.
  Qed.
  Theorem extra_rows names : (forall p, In p names -> ~ In (p ++ "1") (dkeys quant)) ->
    exists rows, table_rows names 1 = Ok rows /\ map w_key rows = filter (fun k => dmem quant k && listed k) names.
  Proof.
    intro H. destruct (rows_keys (pairs names 1) []) as (rows & E & M). exists rows. split; [exact E|]. rewrite M. cbn [map app]. f_equal.
    unfold pairs. cbn [seq flat_map]. rewrite app_nil_r, map_map. cbn [fst snd].
    clear E M. induction names as [|p names IH]; [reflexivity|]. cbn [map]. rewrite IH; [|intros; apply H; now right].
    f_equal. unfold shown_key. rewrite key_one.
    destruct (dmem quant (p ++ "1")) eqn:D.
    - exfalso. apply dmem_dget in D as [v D]. apply (H p); [now left|]. eapply dget_key; eauto.
    - apply butlast_snoc.
  Qed.
End Rows.

(** * Units *)
Lemma strip_spec s : forall p r, strip_prefix s p = Some r <-> p = s ++ r.
Proof.
  induction s as [|a s IH]; intros p r; cbn.
  - split; [now intros [= ->]|now intros ->].
  - destruct p as [|b p]; [split; discriminate|]. destruct (Ascii.eqb_spec a b) as [->|H].
    + rewrite IH. split; [now intros ->|now intros [= ->]].
    + split; [discriminate|]. intros [= ->]. easy.
Qed.
Lemma remove_none s p : forall f, s <> "" -> String.length p < f -> ~ occurs s p -> remove_all f s p = p.
Proof.
  induction p as [|c p IH]; intros f Hs L H; (destruct f as [|f]; [lia|]); cbn [remove_all].
  - destruct (strip_prefix s "") as [r|] eqn:E; [|reflexivity]. apply strip_spec in E. destruct s; easy.
  - destruct (strip_prefix s (String c p)) as [r|] eqn:E.
    + apply strip_spec in E. exfalso. apply H. exists "", r. exact E.
    + f_equal. apply IH; [exact Hs|cbn in L; lia|]. intros (a & b & E2). apply H. exists (String c a), b. now rewrite E2.
Qed.
Lemma remove_end s b : forall f, s <> "" -> String.length (b ++ s) < f -> only_at_end s b -> remove_all f s (b ++ s) = b.
Proof.
  induction b as [|c b IH]; intros f Hs L H; (destruct f as [|f]; [lia|]); cbn [remove_all].
  - cbn [append]. destruct (strip_prefix s s) as [r|] eqn:E.
    + apply strip_spec in E. rewrite (H "" r E). destruct f; [reflexivity|]. cbn. destruct s; [easy|reflexivity].
    + exfalso. assert (strip_prefix s s = Some "") as X by (apply strip_spec; now rewrite app_nil_str). congruence.
  - cbn [append]. destruct (strip_prefix s (String c (b ++ s))) as [r|] eqn:E.
    + exfalso. apply strip_spec in E. pose proof (H "" r E) as ->. cbn in E. rewrite app_nil_str in E.
      assert (String.length (String c (b ++ s)) = String.length s) as X by now rewrite E.
      cbn in X. clear - X. revert X.
      assert (forall u v, String.length (u ++ v) = String.length u + String.length v) as LA by (induction u; cbn; congruence).
      rewrite LA. lia.
    + f_equal. apply IH; [exact Hs|cbn in L; lia|]. intros a d E2. apply (H (String c a) d). cbn. now rewrite E2.
Qed.

Theorem unit_own units suffixes p par : get_text units p <> "" -> unit_of units suffixes p par = get_text units p.
Proof. intro H. unfold unit_of. apply String.eqb_neq in H. rewrite H. cbn [andb]. now rewrite H. Qed.

Theorem unit_suffix units suffixes s b par : s <> "" -> only_suffix suffixes s (b ++ s) -> only_at_end s b ->
  ~ In (b ++ s) (dkeys units) -> ~ In par (dkeys units) ->
  unit_of units suffixes (b ++ s) par = get_text units b.
Proof.
  intros Hs [I O] E N1 N2. apply dget_none in N1, N2. assert (get_text units (b ++ s) = "") as G1 by (unfold get_text; now rewrite N1).
  assert (get_text units par = "") as G2 by (unfold get_text; now rewrite N2).
  unfold unit_of, dmem. rewrite G1, N2. change (String.eqb "" "") with true. cbn [andb negb].
  assert (find (fun s' => substr_in s' (b ++ s)) suffixes = Some s) as F.
  { assert (forall s', In s' suffixes -> substr_in s' (b ++ s) = true -> s' = s) as O' by (intros; apply O; auto; now apply substr_occurs).
    assert (substr_in s (b ++ s) = true) as Y by (apply substr_occurs; exists b, ""; now rewrite app_nil_str).
    clear - I O' Y. induction suffixes as [|a l IH]; [easy|]. cbn. destruct (substr_in a (b ++ s)) eqn:Ea.
    - f_equal. apply O'; [now left|exact Ea].
    - apply IH; [|intros; apply O'; auto; now right]. destruct I as [->|I]; [congruence|exact I]. }
  rewrite F. unfold replace_all. rewrite remove_end; [|exact Hs|lia|exact E].
  destruct (String.eqb_spec (get_text units b) "") as [->|H]; [|reflexivity]. exact G2.
Qed.

(** * Names *)
Lemma split_word p : forall cur rest, ~ occurs " " p -> split_aux (p ++ String " " rest) cur = (if String.eqb (cur ++ p) "" then split_aux rest "" else (cur ++ p) :: split_aux rest "").
Proof.
  induction p as [|c p IH]; intros cur rest H.
  - cbn [append split_aux]. rewrite app_nil_str. reflexivity.
  - cbn [append split_aux]. destruct (Ascii.eqb_spec c " ") as [->|N].
    + exfalso. apply H. exists "", p. reflexivity.
    + rewrite IH; [|intros (a & b & E); apply H; exists (String c a), b; now rewrite E].
      now rewrite app_str_assoc.
Qed.
Lemma split_last p : forall cur, ~ occurs " " p -> split_aux p cur = (if String.eqb (cur ++ p) "" then [] else [cur ++ p]).
Proof.
  induction p as [|c p IH]; intros cur H.
  - cbn [split_aux]. now rewrite app_nil_str.
  - cbn [split_aux]. destruct (Ascii.eqb_spec c " ") as [->|N].
    + exfalso. apply H. exists "", p. reflexivity.
    + rewrite IH; [|intros (a & b & E); apply H; exists (String c a), b; now rewrite E]. now rewrite app_str_assoc.
Qed.
Lemma split_concat l : (forall p, In p l -> one_word p) -> split (String.concat " " l) = l.
Proof.
  unfold split. induction l as [|p l IH]; intro H; [reflexivity|].
  destruct (H p (or_introl eq_refl)) as [Np Bp]. destruct l as [|q l].
  - cbn [String.concat]. rewrite split_last by exact Bp. cbn. destruct (String.eqb_spec p ""); [easy|reflexivity].
  - change (String.concat " " (p :: q :: l)) with (p ++ String " " (String.concat " " (q :: l))).
    rewrite split_word by exact Bp. change ("" ++ p) with p. destruct (String.eqb_spec p ""); [easy|].
    f_equal. apply IH. intros; apply H; now right.
Qed.

Lemma insert_perm x l : Permutation (x :: l) (insert_desc x l).
Proof.
  induction l as [|y l IH]; cbn; [reflexivity|]. destruct (String.compare x y); try reflexivity.
  rewrite perm_swap. now constructor.
Qed.
Lemma sort_perm l : Permutation l (sort_desc l).
Proof. induction l as [|x l IH]; [constructor|]. cbn. rewrite <- insert_perm. now constructor. Qed.

Theorem extra_in ep names p : In p (extra_names ep names) <->
  (exists o, In o ["gamma"; "dvdt"; "curv"; "jit"] /\ ((In p ep /\ occurs o p) \/ (p = o /\ forall q, In q ep -> ~ occurs o q))) \/
  (In p names /\ exists r, p = "gp_" ++ r).
Proof.
  unfold extra_names. rewrite in_app_iff, in_flat_map, filter_In, prefix_occurs.
  assert (forall o, In p (match filter (substr_in o) ep with [] => [o] | op => sort_desc op end) <->
    (In p ep /\ occurs o p) \/ (p = o /\ forall q, In q ep -> ~ occurs o q)) as H.
  { intro o. assert (forall x, In x (filter (substr_in o) ep) <-> In x ep /\ occurs o x) as F by (intro; rewrite filter_In, substr_occurs; tauto).
    destruct (filter (substr_in o) ep) as [|a l] eqn:E.
    - split.
      + intros [<-|[]]. right. split; [reflexivity|]. intros q Hq Ho. apply (F q). auto.
      + intros [A|[-> _]]; [now apply F in A|now left].
    - assert (In p (sort_desc (a :: l)) <-> In p (a :: l)) as ->.
      { split; apply Permutation_in; [symmetry|]; apply sort_perm. }
      rewrite F. split; [tauto|]. intros [A|[_ B]]; [exact A|]. exfalso. assert (In a (a :: l)) as Ha by now left. apply F in Ha as [H1 H2]. exact (B a H1 H2). }
  split.
  - intros [(o & Ho & A)|A]; [left|now right]. exists o. split; [exact Ho|]. now apply H.
  - intros [(o & Ho & A)|A]; [left|now right]. exists o. split; [exact Ho|]. now apply H.
Qed.

(** * The groups *)
Lemma report_basis h ps h' q : report_params h ps = Ok (h', Some q) -> fitting_basis q = "per tc tp e w k".
Proof.
  unfold report_params. destruct (to_synth h (ps_basis ps) ps true None) as [[h1 sp]|]; [|discriminate]. cbn [bind].
  destruct (from_synth h1 (ps_basis sp) sp print_basis true) as [[hb q']|] eqn:E; [|discriminate]. cbn [bind]. intros [= <- ->].
  unfold from_synth in E. destruct (negb (str_in print_basis BASIS_NAMES)); [discriminate|].
  destruct (copy_params h1 sp) as [h2 q2]. match type of E with bind ?x _ = _ => destruct x end; [|discriminate].
  cbn [bind] in E. injection E as _ <-. reflexivity.
Qed.
