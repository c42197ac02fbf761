(** Proofs about the parser of the command line (C84). *)
From Coq Require Import Reals String Ascii ZArith Bool List Permutation Lia.
From Verif Require Import Py PyFacts Params Basis Pipeline ReportFile ReportFileSpec ReportFileProofs Cli CliSpec.
Import ListNotations.
Open Scope string_scope.

Ltac in_cases H := cbn in H; repeat (destruct H as [H|H]; [subst|]); try destruct H.
Ltac in_exact H := repeat (match type of H with _ \/ _ => destruct H as [H|H] | False => destruct H end).

Lemma option_class c n a : option_of c n a -> classify (acts_of c) n = COpt n a None /\ n <> "--".
Proof.
  intros [A N]. destruct c; cbn in A; in_exact A; subst a; cbn in N; in_exact N; subst n; (split; [vm_compute; reflexivity|discriminate]).
Qed.
Lemma word_class acts w : word w -> classify acts w = CVal /\ w <> "--".
Proof.
  destruct w as [|c w]; [intros _; split; [reflexivity|discriminate]|]. intro N. cbn in N. split.
  - unfold classify. destruct (Ascii.eqb_spec c "-"); [contradiction|reflexivity].
  - intro E. injection E. intros. contradiction.
Qed.
Lemma str_in_In s l : str_in s l = true <-> In s l.
Proof. unfold str_in. rewrite existsb_exists. split; [intros (x & H & E); apply String.eqb_eq in E; now subst|intro H; exists s; split; [exact H|apply String.eqb_refl]]. Qed.

Section Lines.
  Variables (O : Type) (empty : O) (to_int : string -> option Z) (to_float : string -> option ext) (to_obj : string -> res O).
  Notation value := (value O).
  Notation convert := (convert O to_int to_float to_obj).
  Notation store := (store O to_int to_float to_obj).
  Notation words := (words O to_int to_float to_obj).
  Notation close := (close O to_int to_float to_obj).
  Notation sets := (sets O to_int to_float to_obj).
  Notation reads := (reads O to_int to_float to_obj).
  Notation parse_sub := (parse_sub O empty to_int to_float to_obj).
  Notation parse_main := (parse_main O empty to_int to_float to_obj).

  Lemma convert_reads t s v : reads t s v -> convert t s = Go v.
  Proof.
    destruct 1 as [s|s z H|s x H|s N| |s o H]; cbn; [reflexivity|now rewrite H|now rewrite H| |reflexivity|now rewrite H].
    destruct (String.eqb_spec s ""); [contradiction|reflexivity].
  Qed.
  Lemma reads_convert t s v : convert t s = Go v -> reads t s v.
  Proof.
    destruct t; cbn; intro H.
    - injection H as <-. constructor.
    - destruct (to_int s) eqn:E; [injection H as <-; now constructor|discriminate].
    - destruct (to_float s) eqn:E; [injection H as <-; now constructor|discriminate].
    - injection H as <-. destruct (String.eqb_spec s "") as [->|]; [constructor|now constructor].
    - destruct (to_obj s) as [o|e] eqn:E; [injection H as <-; now constructor|destruct e; discriminate].
  Qed.

  (** one word *)
  Lemma words_option c n a r ns m ex : option_of c n a ->
    words (acts_of c) (n :: r) ns m ex = match close m ns with Stop x => Stop x | Go ns => match open_ O to_int to_float to_obj [] a ns with Go (ns, m) => words (acts_of c) r ns m ex | Stop x => Stop x end end.
  Proof.
    intro H. apply option_class in H as [C N]. cbn [Cli.words]. destruct (String.eqb_spec n "--"); [contradiction|]. rewrite C. reflexivity.
  Qed.
  Lemma words_word acts w r ns m ex : word w ->
    words acts (w :: r) ns m ex = match value_ O to_int to_float to_obj m w ns ex with Go (ns, m, ex) => words acts r ns m ex | Stop x => Stop x end.
  Proof.
    intro H. apply (word_class acts) in H as [C N]. cbn [Cli.words]. destruct (String.eqb_spec w "--"); [contradiction|]. rewrite C. reflexivity.
  Qed.
  Lemma words_taking acts l : Forall word l -> forall r ns pre a vals ex,
    words acts (l ++ r) ns (Taking pre a vals) ex = words acts r ns (Taking pre a (vals ++ l)) ex.
  Proof.
    induction 1 as [|w l W F IH]; intros r ns pre a vals ex; [now rewrite app_nil_r|].
    cbn [app]. rewrite (words_word _ _ _ _ _ _ W). cbn [value_]. rewrite IH, <- app_assoc. reflexivity.
  Qed.

  (** one option with its values *)
  Lemma block_words c b d v : sets c b d v -> forall r ns m ex ns0, close m ns = Go ns0 ->
    exists ns1 m1, words (acts_of c) (b ++ r) ns m ex = words (acts_of c) r ns1 m1 ex /\ close m1 ns1 = Go (dset ns0 d v) /\ (m1 = Idle \/ exists l, v = VList l).
  Proof.
    intros S r ns m ex ns0 C. destruct S as [n a b H K|n a t ch s v H K W R A|n a l s q H K W A].
    - cbn [app]. rewrite (words_option _ _ _ _ _ _ _ H), C. unfold open_, flaglike. rewrite K. cbn. unfold Cli.store. rewrite K. eexists _, Idle. auto.
    - cbn [app]. rewrite (words_option _ _ _ _ _ _ _ H), C. unfold open_, flaglike. rewrite K. rewrite (words_word _ _ _ _ _ _ W).
      cbn [value_]. rewrite K. unfold store_pre. cbn [store_all]. unfold Cli.store. rewrite K, (convert_reads _ _ _ R).
      exists (dset ns0 (a_dest a) v), Idle. split; [|auto]. destruct ch as [l|]; [|reflexivity]. cbn in A. apply str_in_In in A. now rewrite A.
    - change ((n :: s :: q) ++ r)%list with (n :: s :: (q ++ r))%list. rewrite (words_option _ _ _ _ _ _ _ H), C. unfold open_, flaglike. rewrite K.
      inversion W; subst. rewrite words_word by assumption. cbn [value_]. rewrite K. rewrite words_taking by assumption.
      eexists _, _. split; [reflexivity|split; [|eauto]]. cbn [Cli.close store_all app]. unfold Cli.store. rewrite K.
      assert (forallb (fun x => str_in x l) (s :: q) = true) as ->; [|reflexivity]. apply forallb_forall. intros x X. apply str_in_In. rewrite Forall_forall in A. auto.
  Qed.
  Definition entered (ss : list (string * value)) (ns : dict value) : dict value := fold_left (fun ns dv => dset ns (fst dv) (snd dv)) ss ns.
  Lemma line_words c blocks ss : says O to_int to_float to_obj c blocks ss -> forall r ns m ex ns0, close m ns = Go ns0 ->
    exists ns1 m1, words (acts_of c) (concat blocks ++ r) ns m ex = words (acts_of c) r ns1 m1 ex /\ close m1 ns1 = Go (entered ss ns0) /\
      match rev ss with [] => m1 = m | dv :: _ => m1 = Idle \/ exists l, snd dv = VList l end.
  Proof.
    induction 1 as [|b [d v] blocks ss S F IH]; intros r ns m ex ns0 C; [exists ns, m; split; [reflexivity|split; [exact C|reflexivity]]|].
    cbn [concat]. rewrite <- app_assoc. destruct (block_words _ _ _ _ S (concat blocks ++ r)%list ns m ex ns0 C) as (ns1 & m1 & -> & C1 & M1). destruct (IH r ns1 m1 ex _ C1) as (ns2 & m2 & E2 & C2 & M2).
    exists ns2, m2. split; [exact E2|split; [exact C2|]]. cbn [rev]. destruct (rev ss) as [|dv q]; [cbn; now rewrite M2|exact M2].
  Qed.
  Lemma block_ambiguous c b d v r : sets c b d v -> ambiguous (acts_of c) (b ++ r) = ambiguous (acts_of c) r.
  Proof.
    assert (OP : forall n a q, option_of c n a -> ambiguous (acts_of c) (n :: q) = ambiguous (acts_of c) q).
    { intros n a q H. apply option_class in H as [C N]. cbn [ambiguous]. destruct (String.eqb_spec n "--"); [contradiction|]. now rewrite C. }
    assert (WO : forall w q, word w -> ambiguous (acts_of c) (w :: q) = ambiguous (acts_of c) q).
    { intros n q H. apply (word_class (acts_of c)) in H as [C N]. cbn [ambiguous]. destruct (String.eqb_spec n "--"); [contradiction|]. now rewrite C. }
    intro S. destruct S as [n a b H K|n a t ch s v H K W R A|n a l s q H K W A]; cbn [app]; rewrite (OP _ _ _ H); [reflexivity|now apply WO|].
    change (s :: q ++ r)%list with ((s :: q) ++ r)%list. revert W. generalize (s :: q). clear -WO. induction 1 as [|w l W F IH]; [reflexivity|]. cbn [app]. now rewrite WO.
  Qed.
  Lemma line_ambiguous c blocks ss r : says O to_int to_float to_obj c blocks ss -> ambiguous (acts_of c) (concat blocks ++ r) = ambiguous (acts_of c) r.
  Proof.
    induction 1 as [|b [d v] blocks ss S F IH]; [reflexivity|]. cbn [concat]. rewrite <- app_assoc. now rewrite (block_ambiguous _ _ _ _ _ S).
  Qed.
  Lemma line_parse c blocks ss : says O to_int to_float to_obj c blocks ss -> parse_sub c (concat blocks) = Go (entered ss (defaults O empty c), false).
  Proof.
    intro S. unfold Cli.parse_sub. pose proof (line_ambiguous _ _ _ [] S) as A. rewrite app_nil_r in A. rewrite A. cbn [ambiguous].
    destruct (line_words _ _ _ S [] (defaults O empty c) Idle false _ eq_refl) as (ns1 & m1 & E & C & _). rewrite app_nil_r in E. rewrite E. cbn [Cli.words]. now rewrite C.
  Qed.
  Lemma command_parse c l : parse_main (called_by c :: l) false = match parse_sub c l with Stop x => Stop x | Go (ns, more) => if more then Stop (Exit 2) else Go (Some (c, ns)) end.
  Proof.
    cbn [Cli.parse_main]. assert (String.eqb (called_by c) "--" = false) as -> by (destruct c; reflexivity). assert (classify main_acts (called_by c) = CVal) as -> by (destruct c; reflexivity).
    assert (command_of (called_by c) = Some c) as -> by (destruct c; reflexivity). destruct (parse_sub c l) as [[ns [|]]|]; reflexivity.
  Qed.

  (** the arguments *)
  Lemma entered_other ss d : ~ In d (map fst ss) -> forall ns, dget (entered ss ns) d = dget ns d.
  Proof.
    induction ss as [|[k v] ss IH]; intros N ns; [reflexivity|]. cbn. change (dget (entered ss (dset ns k v)) d = dget ns d). rewrite IH; [|intro; apply N; now right].
    apply dget_dset_other. intro; subst; apply N; now left.
  Qed.
  Lemma entered_final c ss d v : final O empty c ss d v -> dget (entered ss (defaults O empty c)) d = Some v.
  Proof.
    intros [(a & b & -> & N)|[N D]]; [|now rewrite entered_other].
    unfold entered. rewrite fold_left_app. cbn [fold_left fst snd]. fold (entered a (defaults O empty c)). change (dget (entered b (dset (entered a (defaults O empty c)) d v)) d = Some v).
    rewrite entered_other by exact N. apply dget_dset_same.
  Qed.
  Lemma final_ex c ss d v0 : dget (defaults O empty c) d = Some v0 -> exists v, final O empty c ss d v.
  Proof.
    intro D. destruct (in_dec string_dec d (map fst ss)) as [I|N]; [|exists v0; right; auto].
    induction ss as [|[k v] ss IH]; [destruct I|]. destruct (in_dec string_dec d (map fst ss)) as [J|N].
    - destruct (IH J) as (w & [(a & b & -> & M)|[M _]]); [|contradiction]. exists w. left. exists ((k, v) :: a), b. split; [reflexivity|exact M].
    - destruct I as [E|I]; [|contradiction]. cbn in E. subst k. exists v. left. exists [], ss. split; [reflexivity|exact N].
  Qed.
  Lemma final_kind c blocks ss d v : says O to_int to_float to_obj c blocks ss -> final O empty c ss d v -> possible O empty to_int to_float to_obj c d v.
  Proof.
    intros S [(a & b & -> & N)|[N D]]; [|now left]. right.
    assert (exists w, sets c w d v) as (w & X).
    { apply Forall2_app_inv_r in S as (l1 & l2 & _ & S & _). inversion S; subst. eexists. eassumption. }
    destruct X as [n x bb H K|n x t ch s v H K W R A|n x l s q H K W A]; exists x; (split; [apply H|split; [reflexivity|]]); unfold takes; rewrite K; eauto.
  Qed.
  Lemma text_or_none c d v : d = "outputdir" \/ d = "setupfn" -> possible O empty to_int to_float to_obj c d v -> v = VNone \/ exists s, v = VStr s.
  Proof.
    intros D [E|(a & A & E & T)].
    - left. destruct D as [-> | ->]; destruct c; cbn in E; congruence.
    - right. destruct D as [-> | ->]; destruct c; cbn in A; in_exact A; subst a; cbn in E; try discriminate E; cbn in T; destruct T as (s & R & _); inversion R; eauto.
  Qed.
End Lines.
