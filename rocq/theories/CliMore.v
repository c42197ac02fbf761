(** More on the command line (C84): the values of arguments, lines that are refused, other spellings. *)
From Coq Require Import Reals String Ascii ZArith Bool List Permutation Lia.
From Verif Require Import Py PyFacts Params Basis Pipeline ReportFile ReportFileSpec ReportFileProofs Cli CliSpec CliProofs CliThms.
Import ListNotations.
Open Scope string_scope.

Lemma find_act_in acts o a : find_act acts o = Some a -> In a acts /\ In o (a_names a).
Proof. unfold find_act. intro H. apply find_some in H as [I N]. split; [exact I|]. now apply str_in_In. Qed.
Lemma option_found c n a : option_of c n a -> find_act (acts_of c) n = Some a.
Proof. intros [A N]. destruct c; cbn in A; in_exact A; subst a; cbn in N; in_exact N; subst n; vm_compute; reflexivity. Qed.
Definition pairs (acts : list act) : list (string * act) := flat_map (fun a => map (fun n => (n, a)) (a_names a)) acts.
Lemma in_pairs acts n a : In (n, a) (pairs acts) <-> In a acts /\ In n (a_names a).
Proof.
  unfold pairs. rewrite in_flat_map. split.
  - intros (b & B & H). apply in_map_iff in H as (m & E & M). now injection E as -> ->.
  - intros [A N]. exists a. split; [exact A|]. apply in_map_iff. eauto.
Qed.
Lemma starting_pairs acts p : starting acts p = filter (fun na => String.prefix p (fst na)) (pairs acts).
Proof.
  unfold starting, pairs. induction acts as [|a acts IH]; [reflexivity|]. cbn [flat_map]. rewrite filter_app, IH. f_equal.
  induction (a_names a) as [|n l IHl]; [reflexivity|]. cbn. destruct (String.prefix p n); cbn; now rewrite IHl.
Qed.
Lemma starting_in acts p n a : In (n, a) (starting acts p) -> In a acts.
Proof. rewrite starting_pairs. intro H. apply filter_In in H as [H _]. now apply in_pairs in H. Qed.
Lemma classify_in acts w o a e : classify acts w = COpt o a e -> In a acts.
Proof.
  destruct w as [|c r]; [discriminate|]. unfold classify. destruct (negb (Ascii.eqb c "-")); [discriminate|].
  destruct (find_act acts (String c r)) eqn:F; [intro E; injection E as <- <- <-; now apply find_act_in in F|].
  destruct (String.eqb r ""); [discriminate|]. destruct (split_eq (String c r)) as [n v].
  assert (OT : forall z, other z <> COpt o a e) by (intro z; unfold other; destruct (_ || _); discriminate).
  destruct (if has_char "=" (String c r) then find_act acts n else None) eqn:G.
  - intro E. injection E as <- <- <-. destruct (has_char _ _); [now apply find_act_in in G|discriminate].
  - destruct (String.prefix "-" r).
    + destruct (starting acts n) as [|[o' a'] [|x y]] eqn:SS; [intro H; now destruct (OT _ H)| |discriminate].
      intro E. injection E as <- <- <-. apply (starting_in acts n o'). rewrite SS. now left.
    + destruct r as [|x v']; [discriminate|]. destruct (find_act acts (String c (String x ""))) eqn:H; [|intro K; now destruct (OT _ K)].
      intro E. injection E as <- <- <-. now apply find_act_in in H.
Qed.
Lemma cluster_in acts e : forall pre a p b o, cluster acts pre a e = Some (p, b, o) -> Forall (fun x => In x acts) pre -> In a acts -> Forall (fun x => In x acts) p /\ In b acts.
Proof.
  induction e as [|x e IH]; intros pre a p b o; [discriminate|]. cbn [cluster]. destruct (find_act acts (String "-" (String x ""))) as [b'|] eqn:F; [|discriminate]. apply find_act_in in F as [F _].
  intros H P A. assert (Forall (fun x => In x acts) (pre ++ [a])) as Q by (apply Forall_app; auto).
  destruct (String.eqb e ""); [injection H as <- <- <-; auto|]. destruct (flaglike b'); [exact (IH _ _ _ _ _ H Q F)|injection H as <- <- <-; auto].
Qed.

Section Lines.
  Variables (O : Type) (empty : O) (to_int : string -> option Z) (to_float : string -> option ext) (to_obj : string -> res O).
  Notation value := (value O).
  Notation main := (main O empty to_int to_float to_obj).
  Notation says := (says O to_int to_float to_obj).
  Notation final := (final O empty).
  Notation words := (words O to_int to_float to_obj).
  Notation close := (close O to_int to_float to_obj).
  Notation store := (store O to_int to_float to_obj).
  Notation store_all := (store_all O to_int to_float to_obj).
  Notation store_pre := (store_pre O to_int to_float to_obj).
  Notation open_ := (open_ O to_int to_float to_obj).
  Notation option_ := (option_ O to_int to_float to_obj).
  Notation value_ := (value_ O to_int to_float to_obj).
  Notation parse_sub := (parse_sub O empty to_int to_float to_obj).
  Notation parse_main := (parse_main O empty to_int to_float to_obj).
  Notation possible := (possible O empty to_int to_float to_obj).
  Notation wrong := (wrong to_int to_float).

  (** every argument keeps a value it may have *)
  Section Values.
    Variable c : command.
    Definition fine (ns : dict value) : Prop :=
      (forall d, In d (dkeys (defaults O empty c)) -> exists v, dget ns d = Some v) /\ (forall d v, dget ns d = Some v -> possible c d v).
    Lemma fine_set ns a v : fine ns -> In a (acts_of c) -> takes O to_int to_float to_obj a v -> fine (dset ns (a_dest a) v).
    Proof.
      intros [K V] A T. split.
      - intros d D. destruct (string_dec d (a_dest a)) as [->|N]; [rewrite dget_dset_same; eauto|]. rewrite dget_dset_other by congruence. auto.
      - intros d w. destruct (string_dec d (a_dest a)) as [->|N].
        + rewrite dget_dset_same. intro E. injection E as <-. right. eauto.
        + rewrite dget_dset_other by congruence. apply V.
    Qed.
    Lemma store_fine a vals ns ns' : fine ns -> In a (acts_of c) -> (forall l, a_kind a = KMany l -> vals <> []) -> store a vals ns = Go ns' -> fine ns'.
    Proof.
      intros F A NE. unfold Cli.store. destruct (a_kind a) as [b|t ch|l|] eqn:K; [| | |discriminate].
      - intro E. injection E as <-. apply fine_set; auto. unfold takes. now rewrite K.
      - destruct vals as [|s [|]]; [discriminate| |discriminate]. destruct (convert O to_int to_float to_obj t s) as [v|] eqn:C; [|discriminate]. apply reads_convert in C.
        intro E. assert (allowed ch s /\ ns' = dset ns (a_dest a) v) as [AL ->].
        { destruct ch as [l|]; [|injection E as <-; now split]. destruct (str_in s l) eqn:I; [|discriminate]. injection E as <-. split; [now apply str_in_In|reflexivity]. }
        apply fine_set; auto. unfold takes. rewrite K. eauto.
      - destruct (forallb _ vals) eqn:FA; [|discriminate]. intro E. injection E as <-. apply fine_set; auto. unfold takes. rewrite K.
        destruct vals as [|s r]; [now destruct (NE l)|]. exists s, r. split; [reflexivity|]. apply Forall_forall. intros x X. rewrite forallb_forall in FA. apply str_in_In. auto.
    Qed.
    Lemma store_all_fine pre : Forall (fun x => In x (acts_of c)) pre -> Forall (fun x => flaglike x = true) pre -> forall ns ns', fine ns -> store_all pre ns = Go ns' -> fine ns'.
    Proof.
      induction 1 as [|a pre A FA IH]; intros FL ns ns' FN; [intro E; now injection E as <-|]. inversion FL; subst. cbn [Cli.store_all].
      destruct (store a [] ns) as [ns1|] eqn:S; [|discriminate]. apply IH; [assumption|]. apply (store_fine _ _ _ _ FN A) with (2 := S). intros l K. unfold flaglike in *. rewrite K in *. discriminate.
    Qed.
    Definition mode_fine (m : mode) : Prop :=
      match m with
      | Idle => True
      | Want pre a => Forall (fun x => In x (acts_of c)) pre /\ Forall (fun x => flaglike x = true) pre /\ In a (acts_of c)
      | Taking pre a vals => Forall (fun x => In x (acts_of c)) pre /\ Forall (fun x => flaglike x = true) pre /\ In a (acts_of c) /\ vals <> []
      end.
    Lemma close_fine m ns ns' : mode_fine m -> fine ns -> close m ns = Go ns' -> fine ns'.
    Proof.
      destruct m as [|pre a|pre a vals]; cbn.
      - intros _ F E. now injection E as <-.
      - discriminate.
      - intros (P & FL & A & NE) F. destruct (store_all pre ns) as [ns1|] eqn:S; [|discriminate]. apply store_fine; auto. exact (store_all_fine _ P FL _ _ F S).
    Qed.
    Lemma store_pre_fine pre a v ns ns' m : Forall (fun x => In x (acts_of c)) pre -> Forall (fun x => flaglike x = true) pre -> In a (acts_of c) -> fine ns -> store_pre pre a v ns = Go (ns', m) -> fine ns' /\ mode_fine m.
    Proof.
      intros P FL A F. unfold Cli.store_pre. destruct (store_all pre ns) as [ns1|] eqn:S; [|discriminate]. destruct (store a [v] ns1) as [ns2|] eqn:T; [|discriminate].
      intro E. injection E as <- <-. split; [|exact I]. refine (store_fine _ _ _ _ _ A _ T); [exact (store_all_fine _ P FL _ _ F S)|discriminate].
    Qed.
    Lemma open_fine pre a ns ns' m : Forall (fun x => In x (acts_of c)) pre -> Forall (fun x => flaglike x = true) pre -> In a (acts_of c) -> fine ns -> open_ pre a ns = Go (ns', m) -> fine ns' /\ mode_fine m.
    Proof.
      intros P FL A F. unfold Cli.open_. destruct (flaglike a) eqn:FA.
      - destruct (store_all (pre ++ [a]) ns) as [ns1|] eqn:S; [|discriminate]. intro E. injection E as <- <-. split; [|exact I].
        refine (store_all_fine (pre ++ [a]) _ _ _ _ F S); apply Forall_app; auto.
      - intro E. injection E as <- <-. split; [exact F|]. cbn. auto.
    Qed.
    Lemma cluster_flag e : forall pre a p b o, cluster (acts_of c) pre a e = Some (p, b, o) -> Forall (fun x => flaglike x = true) pre -> flaglike a = true -> Forall (fun x => flaglike x = true) p.
    Proof.
      induction e as [|x e IH]; intros pre a p b o; [discriminate|]. cbn [cluster]. destruct (find_act (acts_of c) (String "-" (String x ""))) as [b'|]; [|discriminate].
      intros H P A. assert (Forall (fun x => flaglike x = true) (pre ++ [a])) as Q by (apply Forall_app; auto).
      destruct (String.eqb e ""); [injection H as <- <- <-; auto|]. destruct (flaglike b') eqn:FB; [exact (IH _ _ _ _ _ H Q FB)|injection H as <- <- <-; auto].
    Qed.
    Lemma option_fine o a e ns ns' m : In a (acts_of c) -> fine ns -> option_ (acts_of c) o a e ns = Go (ns', m) -> fine ns' /\ mode_fine m.
    Proof.
      intros A F. unfold Cli.option_. destruct e as [v|]; [|apply open_fine; auto]. destruct (flaglike a) eqn:FA; [|apply store_pre_fine; auto].
      destruct (short o); [|discriminate]. destruct (cluster (acts_of c) [] a v) as [[[pre b] [v'|]]|] eqn:C; [| |discriminate].
      - destruct (cluster_in _ _ _ _ _ _ _ C (Forall_nil _) A) as [P B]. apply store_pre_fine; auto. exact (cluster_flag _ _ _ _ _ _ C (Forall_nil _) FA).
      - destruct (cluster_in _ _ _ _ _ _ _ C (Forall_nil _) A) as [P B]. apply open_fine; auto. exact (cluster_flag _ _ _ _ _ _ C (Forall_nil _) FA).
    Qed.
    Lemma value_fine m w ns ex ns' m' ex' : mode_fine m -> fine ns -> value_ m w ns ex = Go (ns', m', ex') -> fine ns' /\ mode_fine m'.
    Proof.
      destruct m as [|pre a|pre a vals]; cbn [mode_fine Cli.value_].
      - intros _ F E. injection E as <- <- <-. split; [exact F|exact I].
      - intros (P & FL & A) FN. assert (match store_pre pre a w ns with Go (ns0, m0) => fine ns0 /\ mode_fine m0 | Stop _ => True end) as S.
        { destruct (store_pre pre a w ns) as [[ns0 m0]|] eqn:S; [|exact I]. exact (store_pre_fine _ _ _ _ _ _ P FL A FN S). }
        destruct (a_kind a); [destruct (store_pre pre a w ns) as [[ns0 m0]|]; [|discriminate]; intro E; injection E as <- <- <-; exact S..| |destruct (store_pre pre a w ns) as [[ns0 m0]|]; [|discriminate]; intro E; injection E as <- <- <-; exact S].
        intro E. injection E as <- <- <-. split; [exact FN|]. cbn. repeat split; auto. discriminate.
      - intros (P & FL & A & NE) F E. injection E as <- <- <-. split; [exact F|]. cbn. repeat split; auto. now destruct vals.
    Qed.
    Lemma words_fine l : forall ns m ex ns' ex', mode_fine m -> fine ns -> words (acts_of c) l ns m ex = Go (ns', ex') -> fine ns'.
    Proof.
      induction l as [|w l IH]; intros ns m ex ns' ex' M F; cbn [Cli.words].
      - destruct (close m ns) as [ns1|] eqn:C; [|discriminate]. intro E. injection E as <- <-. exact (close_fine _ _ _ M F C).
      - destruct (String.eqb w "--").
        { destruct (close m ns) as [ns1|] eqn:C; [|discriminate]. intro E. injection E as <- <-. exact (close_fine _ _ _ M F C). }
        destruct (classify (acts_of c) w) as [|o a e| |] eqn:CL; [| | |discriminate].
        + destruct (value_ m w ns ex) as [[[ns1 m1] ex1]|] eqn:V; [|discriminate]. destruct (value_fine _ _ _ _ _ _ _ M F V) as [F1 M1]. now apply IH.
        + destruct (close m ns) as [ns1|] eqn:C; [|discriminate]. destruct (option_ (acts_of c) o a e ns1) as [[ns2 m2]|] eqn:OP; [|discriminate].
          destruct (option_fine _ _ _ _ _ _ (classify_in _ _ _ _ _ CL) (close_fine _ _ _ M F C) OP) as [F1 M1]. now apply IH.
        + destruct (close m ns) as [ns1|] eqn:C; [|discriminate]. apply IH; [exact I|exact (close_fine _ _ _ M F C)].
    Qed.
    Lemma defaults_fine : fine (defaults O empty c).
    Proof.
      split; [|now left]. intros d D. destruct (dget (defaults O empty c) d) eqn:E; [eauto|]. apply dget_none in E. contradiction.
    Qed.
  End Values.
  Lemma parse_main_fine l : forall ex c ns, parse_main l ex = Go (Some (c, ns)) -> fine c ns /\ In (called_by c) l.
  Proof.
    induction l as [|w l IH]; intros ex c ns; cbn [Cli.parse_main]; [destruct ex; discriminate|]. destruct (String.eqb w "--"); [discriminate|].
    destruct (classify main_acts w) as [|o a e| |]; [| | |discriminate].
    - destruct (command_of w) as [c'|] eqn:CO; [|discriminate]. destruct (parse_sub c' l) as [[ns' more]|] eqn:P; [|discriminate]. destruct (more || ex); [discriminate|].
      intro E. injection E as <- <-. split.
      + unfold Cli.parse_sub in P. destruct (ambiguous _ _); [discriminate|]. exact (words_fine c' l (defaults O empty c') Idle false _ _ I (defaults_fine c') P).
      + left. clear P. unfold command_of in CO. repeat (match type of CO with (if String.eqb ?x ?y then _ else _) = _ => destruct (String.eqb_spec x y) as [->|]; [injection CO as <-; reflexivity|] end). discriminate.
    - destruct (option_ main_acts o a e []); discriminate.
    - intro H. destruct (IH _ _ _ H). split; [assumption|now right].
  Qed.
  Theorem valid fs argv fs' c ns : main fs argv = (fs', Called c ns) ->
    In (called_by c) argv /\ forall d, In d (dkeys (defaults O empty c)) -> d <> "outputdir" -> exists v, dget ns d = Some v /\ possible c d v.
  Proof.
    unfold Cli.main. destruct (parse_main argv false) as [[[c' ns']|]|x] eqn:P; [|discriminate|discriminate]. destruct (outdir O ns') as [d|e]; [|discriminate]. cbn zeta.
    intro E. assert (c' = c /\ ns = dset ns' "outputdir" (VStr d)) as [-> ->].
    { destruct (isdir fs d); [now injection E|]. destruct (mkdir fs d); [now injection E|discriminate]. }
    apply parse_main_fine in P as [[K V] I]. split; [exact I|]. intros k D N. rewrite dget_dset_other by congruence. destruct (K k D) as (v & G). exists v. auto.
  Qed.

  (** refused lines *)
  Lemma after_stop c r m ns x : after c r -> close m ns = Stop x -> forall ex, words (acts_of c) r ns m ex = Stop x.
  Proof.
    destruct r as [|n r]; intros A C ex; [cbn [Cli.words]; now rewrite C|]. destruct A as (a & A). rewrite (words_option _ _ _ _ _ _ _ _ _ _ _ A). now rewrite C.
  Qed.
  Lemma choice_text c n a t l : option_of c n a -> a_kind a = KOne t (Some l) -> t = TStr.
  Proof. intros [A _] K. destruct c; cbn in A; in_exact A; subst a; cbn in K; congruence. Qed.
  Lemma wrong_stops c b r ns m ex ns0 : wrong c b -> after c r -> close m ns = Go ns0 -> words (acts_of c) (b ++ r) ns m ex = Stop (Exit 2).
  Proof.
    intros W A C. destruct W as [n a H K|n a t l s H K W N|n a ch s H K W N|n a ch s H K W N|n a l q s H K W I N].
    - cbn [app]. rewrite (words_option _ _ _ _ _ _ _ _ _ _ _ H), C. unfold Cli.open_, flaglike. destruct (a_kind a); [destruct K| | |destruct K]; (apply after_stop; [exact A|reflexivity]).
    - cbn [app]. rewrite (words_option _ _ _ _ _ _ _ _ _ _ _ H), C. unfold Cli.open_, flaglike. rewrite K. rewrite (words_word _ _ _ _ _ _ _ _ _ _ W). cbn [Cli.value_]. rewrite K.
      unfold Cli.store_pre. cbn [Cli.store_all]. unfold Cli.store. rewrite K. rewrite (choice_text _ _ _ _ _ H K). cbn [convert].
      destruct (str_in s l) eqn:E; [apply str_in_In in E; contradiction|reflexivity].
    - cbn [app]. rewrite (words_option _ _ _ _ _ _ _ _ _ _ _ H), C. unfold Cli.open_, flaglike. rewrite K. rewrite (words_word _ _ _ _ _ _ _ _ _ _ W). cbn [Cli.value_]. rewrite K.
      unfold Cli.store_pre. cbn [Cli.store_all]. unfold Cli.store. rewrite K. cbn [convert]. now rewrite N.
    - cbn [app]. rewrite (words_option _ _ _ _ _ _ _ _ _ _ _ H), C. unfold Cli.open_, flaglike. rewrite K. rewrite (words_word _ _ _ _ _ _ _ _ _ _ W). cbn [Cli.value_]. rewrite K.
      unfold Cli.store_pre. cbn [Cli.store_all]. unfold Cli.store. rewrite K. cbn [convert]. now rewrite N.
    - cbn [app]. rewrite (words_option _ _ _ _ _ _ _ _ _ _ _ H), C. unfold Cli.open_, flaglike. rewrite K. destruct q as [|w q]; [destruct I|].
      inversion W; subst. cbn [app]. rewrite words_word by assumption. cbn [Cli.value_]. rewrite K. rewrite words_taking by assumption.
      apply after_stop; [exact A|]. cbn [Cli.close Cli.store_all app]. unfold Cli.store. rewrite K.
      destruct (forallb (fun x => str_in x l) (w :: q)) eqn:F; [|reflexivity]. rewrite forallb_forall in F. apply F in I. apply str_in_In in I. contradiction.
  Qed.
  Theorem refused fs c blocks ss b r : says c blocks ss -> wrong c b -> after c r ->
    main fs (called_by c :: concat blocks ++ b ++ r) = (fs, Ended (Exit 2)).
  Proof.
    intros S W A. unfold Cli.main. rewrite command_parse. unfold Cli.parse_sub. destruct (ambiguous _ _); [reflexivity|].
    destruct (line_words O to_int to_float to_obj c blocks ss S (b ++ r) (defaults O empty c) Idle false _ eq_refl) as (ns1 & m1 & -> & C & _).
    now rewrite (wrong_stops _ _ _ _ _ _ _ W A C).
  Qed.
  (** words left over *)
  Inductive surplus (c : command) : list (string * value) -> string -> Prop :=
  | XWord ss w : word w -> (match rev ss with (_, VList _) :: _ => False | _ => True end) -> surplus c ss w
  | XUnknown ss w q : w = "--" ++ q -> q <> "" -> ~ In "="%char (list_ascii_of_string q) -> ~ In " "%char (list_ascii_of_string q) ->
      (forall n a, option_of c n a -> String.prefix w n = false) -> surplus c ss w.
  Lemma has_char_In x s : has_char x s = true <-> In x (list_ascii_of_string s).
  Proof. induction s as [|c s IH]; [split; [discriminate|intros []]|]. cbn. rewrite orb_true_iff, IH, Ascii.eqb_eq. tauto. Qed.
  Lemma prefix_refl s : String.prefix s s = true.
  Proof. induction s as [|c s IH]; [reflexivity|]. cbn. destruct (ascii_dec c c); [exact IH|contradiction]. Qed.
  Lemma split_none s : has_char "=" s = false -> fst (split_eq s) = s.
  Proof. induction s as [|c s IH]; [reflexivity|]. cbn. intro H. apply orb_false_iff in H as [N H]. rewrite N. specialize (IH H). destruct (split_eq s). cbn in *. now rewrite IH. Qed.
  Lemma filter_none {A} (f : A -> bool) l : (forall x, In x l -> f x = false) -> filter f l = [].
  Proof. induction l as [|a l IH]; intro H; [reflexivity|]. cbn. rewrite (H a) by now left. apply IH. intros. apply H. now right. Qed.
  Lemma unknown_class c q : q <> "" -> ~ In "="%char (list_ascii_of_string q) -> ~ In " "%char (list_ascii_of_string q) ->
    (forall n a, option_of c n a -> String.prefix ("--" ++ q) n = false) -> classify (acts_of c) ("--" ++ q) = CUnknown /\ "--" ++ q <> "--".
  Proof.
    intros N E B P. set (w := "--" ++ q). assert (find_act (acts_of c) w = None) as F.
    { destruct (find_act (acts_of c) w) as [a|] eqn:F; [|reflexivity]. apply find_act_in in F. specialize (P w a F). fold w in P. rewrite prefix_refl in P. discriminate. }
    assert (has_char "=" w = false) as H.
    { destruct (has_char "=" w) eqn:H; [|reflexivity]. apply has_char_In in H. cbn in H. destruct H as [H|[H|H]]; [discriminate|discriminate|contradiction]. }
    assert (has_char " " w = false) as G.
    { destruct (has_char " " w) eqn:G; [|reflexivity]. apply has_char_In in G. cbn in G. destruct G as [G|[G|G]]; [discriminate|discriminate|contradiction]. }
    split.
    - unfold w in *. cbn [append] in *. unfold classify. change (negb (Ascii.eqb "-" "-")) with false. cbn iota. rewrite F. change (String.eqb (String "-" q) "") with false. cbn iota.
      rewrite H. pose proof (split_none _ H) as SP. destruct (split_eq _) as [n v]. cbn [fst] in SP. subst n. replace (String.prefix "-" (String "-" q)) with true by (destruct q; reflexivity).
      assert (starting (acts_of c) (String "-" (String "-" q)) = []) as ->.
      { rewrite starting_pairs. apply filter_none. intros [n a] I. apply in_pairs in I. cbn [fst]. exact (P n a I). }
      unfold other. rewrite G. replace (negative_number (String "-" (String "-" q))) with false; [reflexivity|]. reflexivity.
    - destruct q; [contradiction|discriminate].
  Qed.
  Theorem left_over fs c b1 b2 s1 s2 w : says c b1 s1 -> says c b2 s2 -> surplus c s1 w -> main fs (called_by c :: concat b1 ++ w :: concat b2) = (fs, Ended (Exit 2)).
  Proof.
    intros S1 S2 X. unfold Cli.main. rewrite command_parse. unfold Cli.parse_sub. destruct (ambiguous _ _); [reflexivity|].
    destruct (line_words O to_int to_float to_obj c b1 s1 S1 (w :: concat b2) (defaults O empty c) Idle false _ eq_refl) as (ns1 & m1 & -> & C & M).
    assert (exists ns2, words (acts_of c) (w :: concat b2) ns1 m1 false = words (acts_of c) (concat b2) ns2 Idle true) as (ns2 & ->).
    { destruct X as [ss w W NL|ss w q -> NE E B P].
      - assert (m1 = Idle) as ->. { destruct (rev ss) as [|[d v] r]; [exact M|]. destruct M as [M|(l & M)]; [exact M|]. cbn in M. subst v. destruct NL. }
        rewrite (words_word _ _ _ _ _ _ _ _ _ _ W). cbn [Cli.value_]. eauto.
      - destruct (unknown_class c q NE E B P) as [CL N]. cbn [Cli.words]. destruct (String.eqb_spec ("--" ++ q) "--"); [contradiction|]. rewrite CL, C. eauto. }
    destruct (line_words O to_int to_float to_obj c b2 s2 S2 [] ns2 Idle true _ eq_refl) as (ns3 & m3 & E3 & C3 & _). rewrite app_nil_r in E3. rewrite E3. cbn [Cli.words]. now rewrite C3.
  Qed.

  (** other spellings *)
  Lemma words_class acts w o a e r ns m ex : w <> "--" -> classify acts w = COpt o a e ->
    words acts (w :: r) ns m ex = match close m ns with Stop x => Stop x | Go ns => match option_ acts o a e ns with Go (ns, m) => words acts r ns m ex | Stop x => Stop x end end.
  Proof. intros N C. cbn [Cli.words]. destruct (String.eqb_spec w "--"); [contradiction|]. rewrite C. reflexivity. Qed.
  Lemma spelt c w1 w2 v : w1 <> "--" -> w2 <> "--" -> word v ->
    (forall r ns m ex, words (acts_of c) (w1 :: r) ns m ex = words (acts_of c) (w2 :: v :: r) ns m ex) ->
    classify (acts_of c) w1 <> CAmbiguous -> classify (acts_of c) w2 <> CAmbiguous ->
    forall fs pre post, main fs (called_by c :: pre ++ w1 :: post) = main fs (called_by c :: pre ++ w2 :: v :: post).
  Proof.
    intros N1 N2 W E A1 A2 fs pre post. unfold Cli.main. rewrite !command_parse. unfold Cli.parse_sub.
    assert (ambiguous (acts_of c) (pre ++ w1 :: post) = ambiguous (acts_of c) (pre ++ w2 :: v :: post)) as ->.
    { induction pre as [|w pre IH]; cbn [app ambiguous]; [|now rewrite IH]. apply (word_class (acts_of c)) in W as [CV NV].
      destruct (String.eqb_spec w1 "--"); [contradiction|]. destruct (String.eqb_spec w2 "--"); [contradiction|]. destruct (String.eqb_spec v "--"); [contradiction|]. rewrite CV.
      destruct (classify (acts_of c) w1); try contradiction; destruct (classify (acts_of c) w2); try contradiction; reflexivity. }
    assert (forall ns m ex, words (acts_of c) (pre ++ w1 :: post) ns m ex = words (acts_of c) (pre ++ w2 :: v :: post) ns m ex) as ->; [|reflexivity].
    induction pre as [|w pre IH]; intros ns m ex; [apply E|]. cbn [app Cli.words]. destruct (String.eqb w "--"); [reflexivity|].
    destruct (classify (acts_of c) w); [destruct (value_ m w ns ex) as [[[? ?] ?]|]; [apply IH|reflexivity] | | |reflexivity].
    - destruct (close m ns) as [ns1|]; [|reflexivity]. destruct (option_ (acts_of c) o a e ns1) as [[? ?]|]; [apply IH|reflexivity].
    - destruct (close m ns); [apply IH|reflexivity].
  Qed.
  Lemma equals_class c n a t ch v : option_of c n a -> a_kind a = KOne t ch -> classify (acts_of c) (n ++ "=" ++ v) = COpt n a (Some v) /\ n ++ "=" ++ v <> "--".
  Proof. intros [A N] K. destruct c; cbn in A; in_exact A; subst a; cbn in N; in_exact N; subst n; try discriminate K; (split; [vm_compute; reflexivity|discriminate]). Qed.
  Theorem equals fs c n a t ch v pre post : option_of c n a -> a_kind a = KOne t ch -> word v ->
    main fs (called_by c :: pre ++ (n ++ "=" ++ v) :: post) = main fs (called_by c :: pre ++ n :: v :: post).
  Proof.
    intros H K W. destruct (equals_class _ _ _ _ _ v H K) as [CL N1]. destruct (option_class _ _ _ H) as [CN N2]. apply spelt; try assumption; [|rewrite CL; discriminate|rewrite CN; discriminate].
    intros r ns m ex. rewrite (words_option _ _ _ _ _ _ _ _ _ _ _ H). rewrite (words_class _ _ _ _ _ _ _ _ _ N1 CL).
    destruct (close m ns) as [ns1|]; [|reflexivity]. unfold Cli.option_, Cli.open_, flaglike. rewrite K. rewrite (words_word _ _ _ _ _ _ _ _ _ _ W). cbn [Cli.value_]. rewrite K.
    destruct (store_pre [] a v ns1) as [[? ?]|]; reflexivity.
  Qed.
  (** shortened options that may be several, refused before any other word has an effect *)
  Theorem doubtful fs c q n1 a1 n2 a2 pre post : ~ In "--" pre -> q <> "" -> ~ In "="%char (list_ascii_of_string q) ->
    option_of c n1 a1 -> option_of c n2 a2 -> n1 <> n2 -> String.prefix ("--" ++ q) n1 = true -> String.prefix ("--" ++ q) n2 = true -> (forall a, ~ option_of c ("--" ++ q) a) ->
    main fs (called_by c :: pre ++ ("--" ++ q) :: post) = (fs, Ended (Exit 2)).
  Proof.
    intros NP Q E H1 H2 D P1 P2 U. set (w := "--" ++ q) in *. assert (w <> "--") as N1 by (unfold w; destruct q; [contradiction|discriminate]).
    assert (has_char "=" w = false) as HC.
    { destruct (has_char "=" w) eqn:HC; [|reflexivity]. apply has_char_In in HC. cbn in HC. destruct HC as [X|[X|X]]; [discriminate|discriminate|contradiction]. }
    assert (classify (acts_of c) w = CAmbiguous) as CL.
    { destruct (find_act (acts_of c) w) as [b|] eqn:F; [apply find_act_in in F; destruct (U b F)|].
      unfold w in *. cbn [append] in *. unfold classify. change (negb (Ascii.eqb "-" "-")) with false. cbn iota. rewrite F. change (String.eqb (String "-" q) "") with false. cbn iota.
      rewrite HC. pose proof (split_none _ HC) as SP. destruct (split_eq _) as [k v]. cbn [fst] in SP. subst k. replace (String.prefix "-" (String "-" q)) with true by (destruct q; reflexivity).
      rewrite starting_pairs. set (l := filter _ _).
      assert (In (n1, a1) l) as I1 by (apply filter_In; split; [now apply in_pairs|exact P1]). assert (In (n2, a2) l) as I2 by (apply filter_In; split; [now apply in_pairs|exact P2]).
      destruct l as [|[x1 y1] [|z l]]; [destruct I1| |reflexivity]. destruct I1 as [I1|[]], I2 as [I2|[]]. exfalso. apply D. congruence. }
    unfold Cli.main. rewrite command_parse. unfold Cli.parse_sub. assert (ambiguous (acts_of c) (pre ++ w :: post) = true) as ->; [|reflexivity].
    induction pre as [|y pre IH]; cbn [app ambiguous].
    - destruct (String.eqb_spec w "--"); [contradiction|]. now rewrite CL.
    - destruct (String.eqb_spec y "--") as [->|_]; [destruct NP; now left|]. rewrite IH by (intro X; apply NP; now right). now destruct (classify _ y).
  Qed.

  (** options shortened *)
  Lemma filter_one {A B} (f : A * B -> bool) l n a : NoDup (map fst l) -> In (n, a) l -> f (n, a) = true -> (forall x, In x l -> f x = true -> fst x = n) -> filter f l = [(n, a)].
  Proof.
    induction l as [|[k b] l IH]; intros N I T U; [destruct I|]. cbn in N. inversion N; subst. destruct I as [E|I].
    - injection E as -> ->. cbn [filter]. rewrite T. f_equal. apply filter_none. intros [m d] M. destruct (f (m, d)) eqn:F; [|reflexivity]. assert (m = n) as -> by (apply (U (m, d)); [now right|exact F]).
      destruct H1. apply in_map_iff. exists (n, d). auto.
    - cbn [filter]. destruct (f (k, b)) eqn:F.
      + assert (k = n) as -> by (apply (U (k, b)); [now left|exact F]). destruct H1. apply in_map_iff. exists (n, a). auto.
      + apply IH; auto. intros x X. apply U. now right.
  Qed.
  Lemma names_nodup c : NoDup (map fst (pairs (acts_of c))).
  Proof. destruct c; cbn; repeat (constructor; [cbn; intuition discriminate|]); constructor. Qed.
  Theorem shortened fs c q n a pre post : option_of c n a -> q <> "" -> ~ In "="%char (list_ascii_of_string q) -> String.prefix ("--" ++ q) n = true ->
    (forall n' a', option_of c n' a' -> String.prefix ("--" ++ q) n' = true -> n' = n) ->
    main fs (called_by c :: pre ++ ("--" ++ q) :: post) = main fs (called_by c :: pre ++ n :: post).
  Proof.
    intros H Q E P U. set (w := "--" ++ q) in *. destruct (option_class _ _ _ H) as [CN N2]. assert (w <> "--") as N1 by (unfold w; destruct q; [contradiction|discriminate]).
    assert (has_char "=" w = false) as HC.
    { destruct (has_char "=" w) eqn:HC; [|reflexivity]. apply has_char_In in HC. cbn in HC. destruct HC as [X|[X|X]]; [discriminate|discriminate|contradiction]. }
    assert (classify (acts_of c) w = COpt n a None) as CL.
    { destruct (find_act (acts_of c) w) as [b|] eqn:F.
      - apply find_act_in in F. rewrite (U w b F (prefix_refl w)). exact CN.
      - unfold w in *. cbn [append] in *. unfold classify. change (negb (Ascii.eqb "-" "-")) with false. cbn iota. rewrite F. change (String.eqb (String "-" q) "") with false. cbn iota.
        rewrite HC. pose proof (split_none _ HC) as SP. destruct (split_eq _) as [k v]. cbn [fst] in SP. subst k. replace (String.prefix "-" (String "-" q)) with true by (destruct q; reflexivity).
        rewrite starting_pairs. rewrite (filter_one _ _ n a); [reflexivity|apply names_nodup|now apply in_pairs|exact P|].
        intros [k b] I X. apply in_pairs in I. cbn [fst] in *. exact (U k b I X). }
    unfold Cli.main. rewrite !command_parse. unfold Cli.parse_sub.
    assert (ambiguous (acts_of c) (pre ++ w :: post) = ambiguous (acts_of c) (pre ++ n :: post)) as ->.
    { induction pre as [|y pre IH]; cbn [app ambiguous]; [|now rewrite IH]. destruct (String.eqb_spec w "--"); [contradiction|]. destruct (String.eqb_spec n "--"); [contradiction|]. now rewrite CL, CN. }
    assert (forall ns m ex, words (acts_of c) (pre ++ w :: post) ns m ex = words (acts_of c) (pre ++ n :: post) ns m ex) as ->; [|reflexivity].
    induction pre as [|y pre IH]; intros ns m ex; cbn [app Cli.words].
    - destruct (String.eqb_spec w "--"); [contradiction|]. destruct (String.eqb_spec n "--"); [contradiction|]. now rewrite CL, CN.
    - destruct (String.eqb y "--"); [reflexivity|].
      destruct (classify (acts_of c) y); [destruct (value_ m y ns ex) as [[[? ?] ?]|]; [apply IH|reflexivity] | | |reflexivity].
      + destruct (close m ns) as [ns1|]; [|reflexivity]. destruct (option_ (acts_of c) o a0 e ns1) as [[? ?]|]; [apply IH|reflexivity].
      + destruct (close m ns); [apply IH|reflexivity].
  Qed.
  Theorem attached fs c x a t ch y v pre post : option_of c (String "-" (String x "")) a -> a_kind a = KOne t ch -> y <> "-"%char -> y <> "="%char ->
    main fs (called_by c :: pre ++ (String "-" (String x (String y v))) :: post) = main fs (called_by c :: pre ++ String "-" (String x "") :: String y v :: post).
  Proof.
    intros H K Y1 Y2. set (w := String "-" (String x (String y v))). destruct (option_class _ _ _ H) as [CN N2].
    assert (classify (acts_of c) w = COpt (String "-" (String x "")) a (Some (String y v)) /\ w <> "--") as [CL N1].
    { assert (x <> "-"%char /\ x <> "="%char) as [XD XE]. { destruct H as [A N]. destruct c; cbn in A; in_exact A; subst a; cbn in N; in_exact N; injection N as <-; split; discriminate. }
      split; [|unfold w; intro E; discriminate E]. unfold classify, w. change (negb (Ascii.eqb "-" "-")) with false. cbn iota.
      assert (LONG : forall z, find_act (acts_of c) (String "-" (String x (String y z))) = None).
      { intro z. destruct (find_act _ _) as [b|] eqn:F; [|reflexivity]. apply find_act_in in F as [A N]. exfalso. clear -A N XD. destruct c; cbn in A; in_exact A; subst b; cbn in N; in_exact N; congruence. }
      rewrite LONG. change (String.eqb (String x (String y v)) "") with false. cbn iota.
      assert (has_char "=" (String "-" (String x (String y v))) = true -> exists z u, split_eq (String "-" (String x (String y v))) = (String "-" (String x (String y z)), u)) as SP.
      { intros _. cbn [split_eq]. change (Ascii.eqb "-" "=") with false. cbn iota. destruct (Ascii.eqb_spec x "="); [contradiction|]. destruct (Ascii.eqb_spec y "="); [contradiction|]. destruct (split_eq v) as [z u]. eauto. }
      destruct (split_eq _) as [n u]. replace (if has_char "=" _ then find_act (acts_of c) n else None) with (@None act).
      2:{ destruct (has_char "=" _) eqn:HC; [|reflexivity]. destruct (SP eq_refl) as (z & u' & E). injection E as -> ->. symmetry. apply LONG. }
      replace (String.prefix "-" (String x (String y v))) with false.
      2:{ cbn [String.prefix]. destruct (ascii_dec "-" x); [congruence|reflexivity]. }
      now rewrite (option_found _ _ _ H). }
    apply spelt; try assumption; [|rewrite CL; discriminate|rewrite CN; discriminate].
    intros r ns m ex. rewrite (words_option _ _ _ _ _ _ _ _ _ _ _ H). rewrite (words_class _ _ _ _ _ _ _ _ _ N1 CL).
    destruct (close m ns) as [ns1|]; [|reflexivity]. unfold Cli.option_, Cli.open_, flaglike. rewrite K. rewrite words_word by (cbn; congruence). cbn [Cli.value_]. rewrite K.
    destruct (store_pre [] a (String y v) ns1) as [[? ?]|]; reflexivity.
  Qed.
  (** options without a value put together after one dash *)
  Definition dash (x : ascii) : string := String "-" (String x "").
  Lemma letter_char c x a : option_of c (dash x) a -> x <> "-"%char /\ x <> "="%char.
  Proof. unfold dash. intros [A N]. destruct c; cbn in A; in_exact A; subst a; cbn in N; in_exact N; injection N as <-; split; discriminate. Qed.
  Lemma long_none c x y z : x <> "-"%char -> find_act (acts_of c) (String "-" (String x (String y z))) = None.
  Proof. intro XD. destruct (find_act _ _) as [b|] eqn:F; [|reflexivity]. apply find_act_in in F as [A N]. exfalso. destruct c; cbn in A; in_exact A; subst b; cbn in N; in_exact N; congruence. Qed.
  Definition flags (c : command) (l : list (ascii * act)) : Prop := Forall (fun xa => option_of c (dash (fst xa)) (snd xa) /\ exists b, a_kind (snd xa) = KFlag b) l.
  Definition joined (l : list (ascii * act)) : string := string_of_list_ascii (map fst l).
  Lemma cluster_flags c l : flags c l -> forall pre a, l <> [] -> cluster (acts_of c) pre a (joined l) = Some ((pre ++ a :: removelast (map snd l))%list, last (map snd l) a, None).
  Proof.
    induction 1 as [|[x b] l [H (fb & K)] F IH]; intros pre a N; [contradiction|]. cbn [joined map fst string_of_list_ascii cluster]. fold (joined l). cbn [fst snd] in *.
    change (String "-" (String x "")) with (dash x). rewrite (option_found _ _ _ H). destruct l as [|[y d] l]; [reflexivity|].
    assert (String.eqb (joined ((y, d) :: l)) "" = false) as -> by reflexivity. unfold flaglike. rewrite K. rewrite IH by discriminate. rewrite <- app_assoc. cbn [app map snd].
    f_equal. f_equal. f_equal. clear. generalize (map snd l). intro q. revert d. induction q as [|z q IHq]; intro d; [reflexivity|exact (IHq z)].
  Qed.
  Lemma flags_words c l r : flags c l -> forall ns m ex ns0, close m ns = Go ns0 -> l <> [] ->
    words (acts_of c) (map (fun xa => dash (fst xa)) l ++ r) ns m ex = match store_all (map snd l) ns0 with Go ns1 => words (acts_of c) r ns1 Idle ex | Stop x => Stop x end.
  Proof.
    induction 1 as [|[x a] l [H (b & K)] F IH]; intros ns m ex ns0 C N; [contradiction|]. cbn [map app fst snd] in *. rewrite (words_option _ _ _ _ _ _ _ _ _ _ _ H), C.
    unfold Cli.open_, flaglike. rewrite K. cbn [app Cli.store_all]. unfold Cli.store. rewrite K. destruct l as [|xa l]; [reflexivity|]. rewrite (IH _ Idle ex (dset ns0 (a_dest a) (VBool b)) eq_refl) by discriminate. reflexivity.
  Qed.
  Lemma flags_stop c l r : flags c l -> forall ns m ex x, close m ns = Stop x -> l <> [] -> words (acts_of c) (map (fun xa => dash (fst xa)) l ++ r) ns m ex = Stop x.
  Proof. destruct 1 as [|[x a] l [H (b & K)] F]; intros ns m ex z C N; [contradiction|]. cbn [map app fst snd] in *. now rewrite (words_option _ _ _ _ _ _ _ _ _ _ _ H), C. Qed.
  Lemma flags_ambiguous c l r : flags c l -> ambiguous (acts_of c) (map (fun xa => dash (fst xa)) l ++ r) = ambiguous (acts_of c) r.
  Proof.
    induction 1 as [|[x a] l [H (b & K)] F IH]; [reflexivity|]. cbn [map app fst snd ambiguous] in *. destruct (option_class _ _ _ H) as [C N].
    destruct (String.eqb_spec (dash x) "--"); [contradiction|]. rewrite C. exact IH.
  Qed.
  Lemma joined_class c x a l : flags c ((x, a) :: l) -> l <> [] -> classify (acts_of c) (String "-" (joined ((x, a) :: l))) = COpt (dash x) a (Some (joined l)) /\ String "-" (joined ((x, a) :: l)) <> "--".
  Proof.
    intros F N. inversion F as [|? ? [H _] FL E]; subst. cbn [fst snd] in *. destruct (letter_char _ _ _ H) as [XD XE]. destruct l as [|[y b] l]; [contradiction|]. split; [|intro Q; discriminate Q].
    assert (HE : has_char "=" (String "-" (joined ((x, a) :: (y, b) :: l))) = false).
    { cbn [has_char]. change (Ascii.eqb "-" "=") with false. cbn [orb]. clear -F. induction F as [|[z d] q [H _] FQ IH]; [reflexivity|]. cbn [joined map fst string_of_list_ascii has_char]. cbn [fst snd] in H. destruct (letter_char _ _ _ H) as [_ ZE].
      destruct (Ascii.eqb_spec z "="); [contradiction|]. exact IH. }
    change (joined ((x, a) :: (y, b) :: l)) with (String x (String y (joined l))) in *. change (joined ((y, b) :: l)) with (String y (joined l)).
    unfold classify. change (negb (Ascii.eqb "-" "-")) with false. cbn iota. rewrite long_none by exact XD. change (String.eqb (String x (String y (joined l))) "") with false. cbn iota.
    rewrite HE. destruct (split_eq _) as [n u]. replace (String.prefix "-" (String x (String y (joined l)))) with false.
    2:{ cbn [String.prefix]. destruct (ascii_dec "-" x); [congruence|reflexivity]. }
    change (String "-" (String x "")) with (dash x). now rewrite (option_found _ _ _ H).
  Qed.
  Theorem together fs c l pre post : flags c l -> l <> [] ->
    main fs (called_by c :: pre ++ String "-" (joined l) :: post) = main fs (called_by c :: pre ++ map (fun xa => dash (fst xa)) l ++ post).
  Proof.
    intros F N. destruct l as [|[x a] l]; [contradiction|]. destruct l as [|yb l]; [reflexivity|]. set (w := String "-" (joined ((x, a) :: yb :: l))). set (q := yb :: l) in *.
    assert (q <> []) as NQ by discriminate. destruct (joined_class c x a q F NQ) as [CL N1]. fold w in CL, N1. inversion F as [|? ? [H (b & K)] FL E]; subst. cbn [fst snd] in *.
    unfold Cli.main. rewrite !command_parse. unfold Cli.parse_sub.
    assert (ambiguous (acts_of c) (pre ++ w :: post) = ambiguous (acts_of c) (pre ++ map (fun xa => dash (fst xa)) ((x, a) :: q) ++ post)) as ->.
    { induction pre as [|y pre IH]; cbn [app]; [|cbn [ambiguous]; now rewrite IH]. rewrite (flags_ambiguous _ _ _ F). cbn [ambiguous]. destruct (String.eqb_spec w "--"); [contradiction|]. now rewrite CL. }
    assert (forall ns m ex, words (acts_of c) (pre ++ w :: post) ns m ex = words (acts_of c) (pre ++ map (fun xa => dash (fst xa)) ((x, a) :: q) ++ post) ns m ex) as ->; [|reflexivity].
    induction pre as [|y pre IH]; intros ns m ex.
    - cbn [app]. rewrite (words_class _ _ _ _ _ _ _ _ _ N1 CL). destruct (close m ns) as [ns1|] eqn:C.
      + rewrite (flags_words _ _ _ F _ _ _ _ C) by discriminate. unfold Cli.option_, flaglike. rewrite K. assert (short (dash x) = true) as ->. { unfold short, dash. destruct (letter_char _ _ _ H) as [XD _]. destruct (Ascii.eqb_spec x "-"); [contradiction|reflexivity]. }
        rewrite (cluster_flags _ _ FL [] a NQ). cbn [app]. unfold Cli.open_.
        assert (map snd ((x, a) :: q) = (a :: removelast (map snd q)) ++ [last (map snd q) a])%list as Q. { cbn [map snd app]. f_equal. apply app_removelast_last. discriminate. }
        rewrite <- Q. assert (flaglike (last (map snd q) a) = true) as ->.
        { assert (In (last (map snd q) a) (map snd q)) as I. { rewrite (app_removelast_last a (l := map snd q)) at 2 by discriminate. apply in_or_app. right. now left. }
          apply in_map_iff in I as ([z d] & <- & I). unfold flags in FL. rewrite Forall_forall in FL. destruct (FL _ I) as [_ (bb & KB)]. unfold flaglike. cbn [snd] in *. now rewrite KB. }
        destruct (store_all (map snd ((x, a) :: q)) ns1); reflexivity.
      + now rewrite (flags_stop _ _ _ F _ _ _ _ C) by discriminate.
    - cbn [app Cli.words]. destruct (String.eqb y "--"); [reflexivity|].
      destruct (classify (acts_of c) y); [destruct (value_ m y ns ex) as [[[? ?] ?]|]; [apply IH|reflexivity] | | |reflexivity].
      + destruct (close m ns) as [ns1|]; [|reflexivity]. destruct (option_ (acts_of c) o a0 e ns1) as [[? ?]|]; [apply IH|reflexivity].
      + destruct (close m ns); [apply IH|reflexivity].
  Qed.
End Lines.
