(** C67: the theorems. *)
From Coq Require Import String Ascii Arith Bool Lia List.
From Verif Require Import Py PyFacts Params ParamsProofs ParamsSpec Basis BasisThms VectorProofs Likelihood DecorrSpec DecorrProofs ParTable ParTableProofs TexLabels TexSpec TexProofs.
Import ListNotations.
Open Scope string_scope.

Lemma label_in pp letters ks d k l : tex_labels pp letters ks = Ok d -> In k ks -> (forall acc, tex_label pp letters k acc = Ok l) -> dget d k = Some l.
Proof.
  intros E Hk HL. destruct (labels_spec _ _ _ _ E) as [A B]. apply B in Hk. apply dget_some_key in Hk as [x Hx]. pose proof (A _ _ Hx) as X. rewrite HL in X. congruence.
Qed.
Theorem planets_thm pp letters ks d n p sym l : tex_labels pp letters ks = Ok d -> In (key p n) ks -> 1 <= n <= 9 -> In (p, sym) SYMBOLS -> letter_of letters n l ->
  dget d (key p n) = Some ("$" ++ sym ++ "_{" ++ l ++ "}$") /\ (no_brace l -> balanced ("$" ++ sym ++ "_{" ++ l ++ "}$")).
Proof.
  intros E Hk Hn Hp Hl. split; [|intro; eapply balanced_planet; eauto]. eapply label_in; eauto. intro acc. now apply planet_label.
Qed.
Theorem planets_distinct pp ks d n n' p p' sym sym' : tex_labels pp None ks = Ok d -> In (key p n) ks -> In (key p' n') ks -> 1 <= n <= 9 -> 1 <= n' <= 9 ->
  In (p, sym) SYMBOLS -> In (p', sym') SYMBOLS -> dget d (key p n) = dget d (key p' n') -> p = p' /\ n = n'.
Proof.
  intros E K1 K2 H1 H2 S1 S2 EQ.
  assert (forall m, 1 <= m <= 9 -> exists l, letter_of None m l) as LT.
  { intros m Hm. cbn. destruct (nth_error ["b"; "c"; "d"; "e"; "f"; "g"; "h"; "i"; "j"] (m - 1)) eqn:G; [eauto|]. apply nth_error_None in G. cbn in G. lia. }
  destruct (LT n H1) as [l L1]. destruct (LT n' H2) as [l' L2].
  destruct (planets_thm _ _ _ _ _ _ _ _ E K1 H1 S1 L1) as [A _]. destruct (planets_thm _ _ _ _ _ _ _ _ E K2 H2 S2 L2) as [B _]. rewrite A, B in EQ.
  assert ("$" ++ sym ++ "_{" ++ l ++ "}$" = "$" ++ sym' ++ "_{" ++ l' ++ "}$") as EQ' by congruence. destruct (planet_inj _ _ _ _ _ _ S1 S2 EQ') as [-> ->].
  split; [reflexivity|]. eapply letter_inj; eauto.
Qed.
Theorem instruments_thm b names letters ks d inst : tex_labels names letters ks = Ok d -> In (b, names) FIT_BASES -> plain_name inst ->
  (In ("gamma_" ++ inst) ks -> dget d ("gamma_" ++ inst) = Some ("$\gamma_{\rm " ++ inst ++ "}$")) /\
  (In ("jit_" ++ inst) ks -> dget d ("jit_" ++ inst) = Some ("$\sigma_{\rm " ++ inst ++ "}$")) /\
  (no_brace inst -> balanced ("$\gamma_{\rm " ++ inst ++ "}$") /\ balanced ("$\sigma_{\rm " ++ inst ++ "}$")).
Proof.
  intros E HF PN. split; [|split].
  - intro Hk. eapply label_in; eauto. intro acc. eapply gamma_label; eauto.
  - intro Hk. eapply label_in; eauto. intro acc. eapply jit_label; eauto.
  - intro NB. split; apply balanced_inst; auto.
Qed.
Theorem hypers_thm b names letters ks d h u inst : tex_labels names letters ks = Ok d -> In (b, names) FIT_BASES -> In (h, u) HYPERS ->
  plain_name inst -> no_brace inst -> ~ ends_in_digit inst -> In (h ++ "_" ++ inst) ks ->
  dget d (h ++ "_" ++ inst) = Some ("$" ++ u ++ ", \rm " ++ inst ++ "}$") /\ balanced ("$" ++ u ++ ", \rm " ++ inst ++ "}$").
Proof.
  intros E HF HH PN NB ND Hk. split.
  - eapply label_in; eauto. intro acc. eapply gp_label; eauto. apply NB.
  - rewrite !app_assoc_s, <- (app_assoc_s _ inst). apply balanced_inst; auto. repeat (destruct HH as [[= <- <-]|HH]; [reflexivity|]). easy.
Qed.
Theorem success pp letters ks : (forall k, In k ks -> k <> "") ->
  (forall k p c n, In k ks -> k = p ++ String c "" -> digit_of c = Some n -> match letters with Some d => In n (map fst d) | None => True end) ->
  exists d, tex_labels pp letters ks = Ok d /\ forall k, In k (dkeys d) <-> In k ks.
Proof.
  intros NE LT. enough (exists d, tex_labels pp letters ks = Ok d) as [d E] by (exists d; split; [exact E|]; exact (proj2 (labels_spec _ _ _ _ E))).
  unfold tex_labels. generalize (@nil (string * string)) as d0. induction ks as [|k ks IH]; intro d0; [eexists; reflexivity|]. cbn [for_each].
  assert (exists l, tex_label pp letters k (dget d0 k) = Ok l) as [l ->].
  { destruct (ends_cases k) as [->|(p & c & ->)]; [destruct (NE "" ltac:(now left) eq_refl)|]. unfold tex_label. rewrite last_app, butlast_app.
    destruct (digit_of c) as [n|] eqn:D; [|cbn [bind]; eauto]. destruct (_ && _); [|cbn [bind]; eauto]. unfold planet_texlabel. destruct letters as [dl|]; [|cbn [bind]; eauto].
    pose proof (LT _ p c n (or_introl eq_refl) eq_refl D) as HI. destruct (find (fun e => Nat.eqb (fst e) n) dl) eqn:F; [cbn [bind]; eauto|].
    exfalso. apply in_map_iff in HI as ([m x] & HE & HI). cbn in HE. subst m. apply (find_none _ _ F) in HI. cbn in HI. rewrite Nat.eqb_refl in HI. discriminate. }
  cbn [bind]. apply IH; intros; [apply NE; now right|]. eapply LT; eauto. now right.
Qed.
Lemma tenth_fails pp letters : ~ In 0 (map fst letters) -> exists e, tex_labels pp (Some letters) [key "per" 10] = Err e.
Proof.
  intro H. exists (KeyError "0"). unfold tex_labels. cbn [for_each]. change (key "per" 10) with ("per1" ++ String "0" ""). unfold tex_label. rewrite last_app, butlast_app.
  change (digit_of "0") with (Some 0). change (negb (substr_in "gamma" "per1") && negb (substr_in "jit" "per1")) with true. cbn match. unfold planet_texlabel.
  destruct (find (fun e => Nat.eqb (fst e) 0) letters) as [[m x]|] eqn:F; [|reflexivity]. apply find_some in F as [F1 F2]. apply Nat.eqb_eq in F2. cbn in F2. subst m.
  exfalso. apply H. apply in_map_iff. exists (0, x). auto.
Qed.
Lemma unbalanced : exists d, tex_labels ["per"; "tp"; "e"; "w"; "k"] None ["gamma_curvy"; "gp_B_apf"] = Ok d /\ forall k l, dget d k = Some l -> ~ balanced l.
Proof.
  eexists. split; [reflexivity|]. intros k l H. apply dget_in in H. cbn in H. destruct H as [[= <- <-]|[[= <- <-]|[]]]; discriminate.
Qed.
Theorem success_spec pp letters ks : (forall k, In k ks -> k <> "") ->
  (forall k p c, In k ks -> k = p ++ String c "" -> 48 <= nat_of_ascii c <= 57 -> match letters with Some d => In (nat_of_ascii c - 48) (map fst d) | None => True end) ->
  exists d, tex_labels pp letters ks = Ok d /\ forall k, In k (dkeys d) <-> In k ks.
Proof.
  intros NE H. apply success; [exact NE|]. intros k p c n Hk E D. unfold digit_of in D. destruct (_ && _) eqn:B; [|discriminate]. injection D as <-.
  apply andb_true_iff in B as [B1 B2]. apply Nat.leb_le in B1, B2. eapply H; eauto.
Qed.
