(** C68: proofs. *)
From Coq Require Import ZArith Reals String Ascii Arith Bool Lia Lra List Permutation.
From Verif Require Import Py PyFloat PyFacts Params ParamsProofs Likelihood Stats StatsProofs DecorrSpec DecorrProofs PostProc PostProcProofs PostProcThms ParTable ParTableSpec ParTableProofs ParTableThms
  TexProofs DerivTab DerivTabSpec.
From Verif Require McmcSaveProofs VectorProofs.
Import ListNotations.
Open Scope R_scope.
Open Scope string_scope.

(** ** labels *)
Lemma count_digits c s d : ParamsProofs.is_digit c = false -> McmcSaveProofs.all_digits d = true -> forall f, count_in f (String c s) d = O.
Proof.
  intros Hc. induction d as [|x d IH]; intros Hd f; (destruct f as [|f]; [reflexivity|]); [reflexivity|]. cbn [count_in strip_prefix].
  cbn [McmcSaveProofs.all_digits] in Hd. apply andb_true_iff in Hd as [H1 H2]. destruct (Ascii.eqb_spec c x) as [->|]; [congruence|]. now apply IH.
Qed.
Lemma count_hit f s k r : strip_prefix s k = Some r -> count_in (S f) s k = S (count_in f s r).
Proof. intro H. cbn [count_in]. now rewrite H. Qed.
Lemma count_miss f s c k : strip_prefix s (String c k) = None -> count_in (S f) s (String c k) = count_in f s k.
Proof. intro H. cbn [count_in]. now rewrite H. Qed.
Lemma texlabel_key p n letter : In p DERIVED -> texlabel (key p n) letter = Some (dtex p letter).
Proof.
  intro Hp. pose proof (McmcSaveProofs.str_nat_digits n) as D. unfold key, texlabel, count.
  assert (forall c s f, ParamsProofs.is_digit c = false -> count_in f (String c s) (str_nat n) = O) as Z by (intros; now apply count_digits).
  destruct Hp as [<-|[<-|[<-|[]]]]; cbn [append String.length].
  - rewrite (count_hit _ _ _ (str_nat n)) by reflexivity. rewrite Z by reflexivity. reflexivity.
  - do 4 rewrite count_miss by reflexivity. rewrite Z by reflexivity. rewrite (count_hit _ _ _ (str_nat n)) by reflexivity. rewrite Z by reflexivity. reflexivity.
  - rewrite count_miss by reflexivity. rewrite Z by reflexivity. rewrite count_miss by reflexivity. rewrite Z by reflexivity. rewrite (count_hit _ _ _ (str_nat n)) by reflexivity. rewrite Z by reflexivity. reflexivity.
Qed.
Lemma derived_no_digit p : In p DERIVED -> no_digit p = true.
Proof. intros [<-|[<-|[<-|[]]]]; reflexivity. Qed.

(** ** letters *)
Lemma letter_at_spec letters n l : letter_at letters n = Ok l -> dletter letters n l.
Proof.
  unfold letter_at, dletter. change default_letters with (combine (seq 1 10) ["b"; "c"; "d"; "e"; "f"; "g"; "h"; "i"; "j"; "k"]).
  set (d := match letters with Some d => d | None => _ end). clearbody d. destruct (find _ d) as [[m x]|] eqn:F; [|discriminate]. intros [= <-]. cbn [snd].
  revert F. induction d as [|[m' x'] d IH]; [discriminate|]. cbn [find fst]. destruct (Nat.eqb_spec m' n) as [->|N].
  - intros [= <- <-]. exists [], d. auto.
  - intro F. destruct (IH F) as (a & b & E & NI). exists ((m', x') :: a), b. split; [now rewrite E|]. cbn. tauto.
Qed.
Lemma letter_at_none letters n : (forall l, ~ dletter letters n l) -> letter_at letters n = Err (KeyError (str_nat n)).
Proof.
  intro H. destruct (letter_at letters n) as [l|e] eqn:E; [destruct (H l); now apply letter_at_spec|]. unfold letter_at in E. destruct (find _ _); congruence.
Qed.

(** ** the loops *)
Section Loop.
  Variables (nulls : list string) (lt : nat -> string).
  Definition dp_pair (st : dplot) (pi : string * nat) : dplot := dp_key nulls (lt (snd pi)) (snd pi) st (fst pi).
  Definition pkey (pi : string * nat) : string := key (fst pi) (snd pi).
  Definition new_col (p k : string) (col : list R) : list R :=
    if String.eqb p "mpsini" && negb (existsb (String.eqb k) nulls) && rltb 100 (median col) then map (fun x => x * (315 / 100000)) col else col.
  Definition unit_for (p : string) (col : list R) : string :=
    if String.eqb p "mpsini" then (if rltb 100 (median col) then JUP else EARTH) else if String.eqb p "rhop" then " g cm$^{-3}$" else if String.eqb p "a" then " AU" else " ".
  Definition entry_for (chains : dict (list R)) (pi : string * nat) : list dlabel :=
    match dget chains (pkey pi) with
    | Some col => if existsb (String.eqb (pkey pi)) nulls then [] else [mkDlabel (pkey pi) (texlabel (pkey pi) (lt (snd pi))) (unit_for (fst pi) col)]
    | None => []
    end.
  Lemma dp_pair_spec st pi : (forall k, k <> pkey pi -> dget (fst (dp_pair st pi)) k = dget (fst st) k) /\
    dget (fst (dp_pair st pi)) (pkey pi) = option_map (new_col (fst pi) (pkey pi)) (dget (fst st) (pkey pi)) /\
    snd (dp_pair st pi) = (snd st ++ entry_for (fst st) pi)%list.
  Proof.
    destruct pi as [p i]. unfold dp_pair, dp_key, entry_for, pkey, new_col, unit_for. cbn [fst snd]. destruct (dget (fst st) (key p i)) as [col|] eqn:G.
    2:{ split; [auto|]. split; [auto|]. now rewrite app_nil_r. }
    destruct (existsb (String.eqb (key p i)) nulls).
    - split; [auto|]. rewrite andb_false_r. cbn [andb option_map]. split; [auto|]. now rewrite app_nil_r.
    - cbn [negb]. rewrite andb_true_r. destruct (String.eqb p "mpsini").
      + cbn [andb option_map]. destruct (rltb 100 (median col)); cbn [fst snd option_map].
        * split; [intros k Hk; now apply dget_dset_other|]. rewrite dget_dset_same. split; reflexivity.
        * auto.
      + cbn [andb]. destruct (String.eqb p "rhop"); [cbn; auto|]. destruct (String.eqb p "a"); cbn; auto.
  Qed.
  Lemma dp_fold L : NoDup (map pkey L) -> forall st,
    (forall k, ~ In k (map pkey L) -> dget (fst (fold_left dp_pair L st)) k = dget (fst st) k) /\
    (forall pi, In pi L -> dget (fst (fold_left dp_pair L st)) (pkey pi) = option_map (new_col (fst pi) (pkey pi)) (dget (fst st) (pkey pi))) /\
    snd (fold_left dp_pair L st) = (snd st ++ flat_map (entry_for (fst st)) L)%list.
  Proof.
    induction L as [|pi L IH]; intros ND st; [cbn; rewrite app_nil_r; repeat split; auto; easy|]. cbn [map] in ND. inversion ND as [|? ? NI ND']; subst. cbn [fold_left].
    destruct (dp_pair_spec st pi) as (A1 & A2 & A3). destruct (IH ND' (dp_pair st pi)) as (B1 & B2 & B3). split; [|split].
    - intros k Hk. cbn [map] in Hk. rewrite B1 by (intro; apply Hk; now right). apply A1. intro; apply Hk; left; congruence.
    - intros q [<-|Hq]; [rewrite B1 by exact NI; exact A2|]. rewrite B2 by exact Hq. rewrite A1; [auto|]. intro E. apply NI. rewrite <- E. now apply in_map.
    - rewrite B3, A3, <- app_assoc. f_equal. cbn [flat_map]. f_equal. clear - NI A1. induction L as [|q L IH]; [reflexivity|]. cbn [flat_map]. cbn [map] in NI. f_equal.
      + unfold entry_for. rewrite A1; [reflexivity|]. intro E. apply NI. left. exact E.
      + apply IH. intro; apply NI; now right.
  Qed.
End Loop.

Definition dpairs (n : nat) : list (string * nat) := flat_map (fun i => map (fun p => (p, i)) DERIVED) (seq 1 n).
Lemma in_dpairs n p i : In (p, i) (dpairs n) <-> In p DERIVED /\ (1 <= i <= n)%nat.
Proof. exact (in_pairs DERIVED n p i). Qed.
Lemma dpairs_nodup n : NoDup (map pkey (dpairs n)).
Proof.
  unfold dpairs. assert (NoDup (seq 1 n)) as ND by apply seq_NoDup. revert ND. generalize (seq 1 n) as s. induction s as [|i s IH]; intro ND; [constructor|]. inversion ND; subst.
  cbn [flat_map]. rewrite map_app. apply VectorProofs.NoDup_app2.
  - cbn. unfold pkey. cbn [fst snd]. repeat constructor; cbn; intro H; repeat destruct H as [H|H]; try easy; apply key_inj in H; try reflexivity; destruct H; discriminate.
  - auto.
  - intros k H1' H2'. apply in_map_iff in H1' as ([p a] & <- & Hp). apply in_map_iff in Hp as (q & [= <- <-] & Hq). apply in_map_iff in H2' as ([p' a'] & E & Hp').
    apply in_flat_map in Hp' as (j & Hj & Hp'). apply in_map_iff in Hp' as (q' & [= <- <-] & Hq'). unfold pkey in E. cbn [fst snd] in E. apply key_inj in E as [_ ->]; [contradiction|..]; now apply derived_no_digit.
Qed.

Lemma derived_plot_inv nplanets letters nulls chains dp : derived_plot nplanets letters nulls chains = Ok dp -> exists lt,
  (forall i, (1 <= i <= nplanets)%nat -> dletter letters i (lt i)) /\ dp = fold_left (dp_pair nulls lt) (dpairs nplanets) (chains, []).
Proof.
  unfold derived_plot, dpairs. set (st0 := (chains, [])). generalize st0. clear st0.
  enough (forall s st, for_each s (fun st i => do letter <- letter_at letters i; Ok (fold_left (dp_key nulls letter i) ["mpsini"; "rhop"; "a"] st)) st = Ok dp ->
    let lt := fun i => match letter_at letters i with Ok l => l | Err _ => "" end in
    (forall i, In i s -> dletter letters i (lt i)) /\ dp = fold_left (dp_pair nulls lt) (flat_map (fun i => map (fun p => (p, i)) DERIVED) s) st) as H.
  { intros st0 E. destruct (H _ _ E) as [A B]. eexists. split; [|exact B]. intros i Hi. apply A. apply in_seq. lia. }
  induction s as [|i s IH]; intros st E lt; cbn [for_each] in E; [injection E as <-; split; [easy|reflexivity]|].
  destruct (letter_at letters i) as [l|] eqn:El; [|discriminate]. cbn [bind] in E. destruct (IH _ E) as [A B]. split.
  - intros j [<-|Hj]; [|exact (A j Hj)]. unfold lt. rewrite El. now apply letter_at_spec.
  - cbn [flat_map]. rewrite fold_left_app. fold lt in B. rewrite B. f_equal. unfold dp_pair, lt. cbn [map fold_left fst snd DERIVED]. rewrite El. reflexivity.
Qed.
