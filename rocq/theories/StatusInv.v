(** C46: whatever has been read can be written and read back. *)
From Coq Require Import String Ascii Arith Bool Lia List.
From Verif Require Import Py PyFacts Params Mass VConv Status StatusProofs StatusSpec StatusRound.
Import ListNotations.
Open Scope string_scope.

Definition raw_val (v : string) : Prop :=
  sall notcr v = true /\ Forall stripped (pieces v) /\ Forall (fun l => commented l = false) (tl (pieces v)).
Definition raw_item (kv : string * string) : Prop := key_ok (fst kv) /\ raw_val (snd kv) /\ open_ok (fst kv) (snd kv).
Definition raw_dict (d : dict string) : Prop := wf_dict d /\ Forall raw_item d.
Definition raw_cfg (c : config) : Prop :=
  raw_dict (c_def c) /\ wf_dict (c_sec c) /\
  Forall (fun nd => name_ok (fst nd) /\ fst nd <> "DEFAULT" /\ raw_dict (snd nd)) (c_sec c).

(** ** removing the trailing empty lines *)
Lemma rstrip_pieces v : Forall stripped (pieces v) -> exists m, pieces (rstrip v) = firstn (S m) (pieces v).
Proof.
  intro H. assert (exists m, pieces (rstrip (joinl (pieces v))) = firstn (S m) (pieces v)) as Q; [|now rewrite join_pieces in Q]. remember (pieces v) as ls eqn:E. pose proof (pieces_not_nil v) as N. rewrite <- E in N. 
  assert (Forall (fun l => forall c, In c (list_ascii_of_string l) -> c <> nl) ls) as HP.
  { subst ls. clear. induction v as [|c v IH]; cbn [pieces].
    - constructor; [intros x []|constructor].
    - destruct (Ascii.eqb_spec c nl) as [->|Nc]; [constructor; [intros x []|exact IH]|].
      destruct (pieces v) as [|l ls]; [constructor; [intros x [<-|[]]; auto|constructor]|]. inversion IH; subst. constructor; auto.
      intros x [<-|Hx]; auto. }
  assert (Hone : forall l, (forall c, In c (list_ascii_of_string l) -> c <> nl) -> pieces l = [l]).
  { clear. induction l as [|c l IH]; auto. intro H. cbn [pieces]. destruct (Ascii.eqb_spec c nl) as [->|N]; [destruct (H nl); auto; now left|].
    rewrite IH; auto. intros x Hx. apply H. now right. }
  assert (Happ : forall a b, (forall c, In c (list_ascii_of_string a) -> c <> nl) -> pieces (a ++ String nl b) = a :: pieces b).
  { clear. induction a as [|c a IH]; intros b H; cbn [append pieces]; auto. destruct (Ascii.eqb_spec c nl) as [->|N]; [destruct (H nl); auto; now left|].
    rewrite IH; auto. intros x Hx. apply H. now right. }
  clear E v. induction ls as [|a ls IH]; [easy|]. inversion H; subst. inversion HP; subst. destruct ls as [|b ls].
  - exists 0%nat. cbn [joinl firstn]. rewrite stripped_r by auto. auto.
  - assert (b :: ls <> []) as Nb by discriminate. destruct IH as [m Em]; auto. rewrite joinl_cons.
    replace (a ++ String nl (joinl (b :: ls))) with ((a ++ String nl "") ++ joinl (b :: ls)) by (rewrite app_assoc_s; reflexivity).
    rewrite rstrip_app. destruct (rstrip (joinl (b :: ls))) as [|c r] eqn:ER.
    + exists 0%nat. rewrite rstrip_app. change (rstrip (String nl "")) with "". cbn match. rewrite stripped_r by auto. cbn [firstn]. auto.
    + exists (S m). rewrite app_assoc_s. cbn [append]. rewrite Happ by auto. change (firstn (S (S m)) (a :: b :: ls)) with (a :: firstn (S m) (b :: ls)). now rewrite <- Em.
Qed.
Lemma forall_firstn {A} (P : A -> Prop) n l : Forall P l -> Forall P (firstn n l).
Proof. intro H. revert n. induction H; intros [|n]; cbn; auto. Qed.
Lemma raw_finish v : raw_val v -> val_ok (rstrip v) /\ hd "" (pieces (rstrip v)) = hd "" (pieces v).
Proof.
  intros (H1 & H2 & H3). destruct (rstrip_pieces v H2) as [m Em]. split.
  - split; [now apply sall_rstrip|]. rewrite Em. split; [now apply forall_firstn|]. split; [|apply rstrip_idem].
    destruct (pieces v) as [|l ls]; cbn; auto. now apply forall_firstn.
  - rewrite Em. destruct (pieces v); reflexivity.
Qed.
Lemma raw_dict_finish d : raw_dict d -> dict_ok (finish_dict d).
Proof.
  intros [HW HF]. split; [unfold wf_dict, finish_dict; rewrite dkeys_map; exact HW|]. unfold finish_dict. rewrite Forall_map. eapply Forall_impl; [|exact HF].
  intros [k v] (A & B & C). cbn [fst snd] in *. destruct (raw_finish v B) as [B1 B2]. split; [exact A|]. split; [exact B1|]. cbn [fst snd].
  unfold open_ok in *. rewrite B2. exact C.
Qed.
Lemma raw_cfg_finish c : raw_cfg c -> cfg_ok (finish c).
Proof.
  intros (A & B & C). split; [now apply raw_dict_finish|]. cbn [finish c_sec]. split; [unfold wf_dict; rewrite dkeys_map; exact B|].
  rewrite Forall_map. eapply Forall_impl; [|exact C]. intros [n d] (D & E & F). cbn [fst snd] in *. auto using raw_dict_finish.
Qed.

(** ** updates *)
Lemma forall_dset {V} (P : string * V -> Prop) (d : dict V) k v : Forall P d -> P (k, v) -> Forall P (dset d k v).
Proof.
  intros H Hp. induction H as [|[a b] d Ha H IH]; cbn [dset]; [now constructor|]. destruct (String.eqb_spec k a) as [->|N]; constructor; auto.
Qed.
Lemma raw_put c sec d : raw_cfg c -> raw_dict d -> (sec = "DEFAULT" \/ name_ok sec) -> raw_cfg (sec_put c sec d).
Proof.
  intros (A & B & C) Hd Hn. unfold sec_put. destruct (String.eqb_spec sec "DEFAULT") as [->|N].
  - split; auto.
  - destruct Hn as [Hn|Hn]; [congruence|]. split; auto. cbn [c_sec]. split; [now apply wf_dset|]. apply forall_dset; auto.
Qed.
Lemma forall_dget {V} (P : string * V -> Prop) (d : dict V) k v : Forall P d -> dget d k = Some v -> P (k, v).
Proof. intros H E. apply dget_in in E. rewrite Forall_forall in H. auto. Qed.
Lemma raw_get c sec d : raw_cfg c -> sec_get c sec = Some d -> raw_dict d /\ (sec = "DEFAULT" \/ name_ok sec).
Proof.
  intros (A & B & C). unfold sec_get. destruct (String.eqb_spec sec "DEFAULT") as [->|N]; intro H.
  - inversion H; subst. auto.
  - apply (forall_dget _ _ _ _ C) in H. cbn in H. tauto.
Qed.
Lemma raw_more st sec opt x : raw_cfg (r_cfg st) -> sall plain x = true -> stripped x -> commented x = false -> raw_cfg (r_cfg (more st sec opt x)).
Proof.
  intros H Hp Hs Hc. unfold more. destruct (sec_get (r_cfg st) sec) as [d|] eqn:E; auto. destruct (dget d opt) as [v|] eqn:E2; auto. cbn [r_cfg].
  destruct (raw_get _ _ _ H E) as [[Hw Hf] Hn]. apply raw_put; auto. split; [now apply wf_dset|]. apply forall_dset; auto.
  pose proof (forall_dget _ _ _ _ Hf E2) as (A & (B1 & B2 & B3) & C). cbn [fst snd] in *.
  split; [exact A|]. cbn [fst snd]. split.
  - split; [rewrite sall_app, B1; cbn; apply (sall_impl plain); auto; intro c; unfold plain, notcr; rewrite andb_true_iff; tauto|].
    rewrite pieces_snoc by auto. split; [apply Forall_app; auto|].
    destruct (pieces v) as [|l ls] eqn:EP; [destruct (pieces_not_nil v EP)|]. cbn [tl app] in *. apply Forall_app. auto.
  - unfold open_ok in *. rewrite pieces_snoc by auto. destruct (pieces v) as [|l ls] eqn:EP; [destruct (pieces_not_nil v EP)|]. exact C.
Qed.

(** ** lines that are headers or items *)
Lemma before_close_plain s h : before_close s = Some h -> sall plain s = true -> sall plain h = true.
Proof.
  revert h. induction s as [|c s IH]; cbn; [discriminate|]. intros h H Hp. apply andb_true_iff in Hp. destruct Hp as [H1 H2].
  destruct (before_close s) as [h'|].
  - inversion H; subst. cbn. rewrite H1. cbn. apply IH; auto.
  - destruct (Ascii.eqb c "]"); inversion H; subst. reflexivity.
Qed.
Lemma header_name s h : header s = Some h -> sall plain s = true -> name_ok h.
Proof.
  destruct s as [|c s]; cbn; [discriminate|]. destruct (Ascii.eqb c "["); [|discriminate]. intros H Hp. apply andb_true_iff in Hp. destruct Hp as [_ Hp].
  destruct (before_close s) as [[|a h']|] eqn:E; try discriminate. inversion H; subst. split; [discriminate|]. eapply before_close_plain; eauto.
Qed.
Lemma before_close_closeless s : before_close s = None -> closeless s.
Proof.
  unfold closeless. induction s as [|c s IH]; cbn; auto. destruct (before_close s); [discriminate|]. destruct (Ascii.eqb c "]"); [discriminate|]. intros _. cbn. auto.
Qed.
Lemma header_closeless r : header (String "[" r) = None -> closeless (stail r).
Proof.
  cbn [header]. change (Ascii.eqb "[" "[") with true. cbn match. destruct r as [|a r]; [reflexivity|]. cbn [stail]. cbn [before_close].
  destruct (before_close r) eqn:E; [discriminate|]. intros _. now apply before_close_closeless.
Qed.
Lemma option_of_split s o v : option_of s = Some (o, v) ->
  exists c, s = o ++ String c v /\ delim c = true /\ sall (fun c => negb (delim c)) o = true.
Proof.
  revert o. induction s as [|c s IH]; intros o; cbn [option_of]; [discriminate|].
  destruct (Ascii.eqb c "=" || Ascii.eqb c ":") eqn:E.
  - intro H. inversion H; subst. exists c. auto.
  - destruct (option_of s) as [[o' v']|]; [|discriminate]. intro H. inversion H; subst. destruct (IH o' eq_refl) as (d & -> & Hd & Ho).
    exists d. split; auto. split; auto. cbn. unfold delim at 1. now rewrite E, Ho.
Qed.
Lemma lower_char_facts c : is_space (lower_char c) = is_space c /\ plain (lower_char c) = plain c /\ delim (lower_char c) = delim c /\
  Ascii.eqb (lower_char c) "#" = Ascii.eqb c "#" /\ Ascii.eqb (lower_char c) ";" = Ascii.eqb c ";" /\
  Ascii.eqb (lower_char c) "]" = Ascii.eqb c "]" /\ Ascii.eqb (lower_char c) "[" = Ascii.eqb c "[" /\ lower_char (lower_char c) = lower_char c.
Proof. chars c; repeat split. Qed.
Lemma lower_idem s : lower (lower s) = lower s.
Proof. induction s as [|c s IH]; cbn; auto. f_equal; auto. apply lower_char_facts. Qed.
Lemma sall_lower (p : ascii -> bool) s : (forall c, p (lower_char c) = p c) -> sall p (lower s) = sall p s.
Proof. intro H. induction s as [|c s IH]; cbn; auto. now rewrite H, IH. Qed.
Lemma lower_rstrip s : rstrip (lower s) = lower (rstrip s).
Proof.
  induction s as [|c s IH]; auto. cbn [lower]. rewrite !rstrip_cons, IH. destruct (lower_char_facts c) as [E _]. rewrite E.
  destruct (rstrip s); cbn [lower]; auto. destruct (is_space c); reflexivity.
Qed.
Lemma stail_rstrip s : stail (rstrip s) = rstrip (stail s).
Proof. destruct s as [|c s]; auto. rewrite rstrip_cons. cbn [stail]. destruct (rstrip s); auto. destruct (is_space c); reflexivity. Qed.
Lemma stail_lower s : stail (lower s) = lower (stail s).
Proof. destruct s; reflexivity. Qed.

Lemma item_line s o v : option_of s = Some (o, v) -> header s = None -> sall plain s = true -> stripped s -> commented s = false -> o <> "" ->
  raw_item (lower (rstrip o), strip v).
Proof.
  intros HO HH HP HS HC HN. destruct (option_of_split _ _ _ HO) as (dl & -> & Hd & Hno). destruct o as [|c o]; [easy|]. clear HN. cbn [append] in *.
  assert (is_space c = false) as Hsp.
  { destruct (strip_cases (String c (o ++ String dl v))) as [E|(a & r & E & Ha & _)]; unfold stripped in HS; rewrite HS in E; [discriminate|]. now inversion E; subst. }
  cbn [sall] in HP. apply andb_true_iff in HP. destruct HP as [HP1 HP2]. rewrite sall_app in HP2. apply andb_true_iff in HP2. destruct HP2 as [HP2 HP3].
  cbn [sall] in HP3. apply andb_true_iff in HP3. destruct HP3 as [_ HP3].
  destruct (lower_char_facts c) as (F1 & F2 & F3 & F4 & F5 & F6 & F7 & F8).
  rewrite rstrip_nospace by auto. cbn [lower].
  assert (sall plain (strip v) = true) as HPv by now apply sall_strip.
  split; [|split]; cbn [fst snd].
  - split; [discriminate|]. split.
    { unfold stripped. rewrite strip_nospace by congruence. now rewrite lower_rstrip, rstrip_idem. }
    split; [cbn [lower]; now rewrite F8, lower_idem|]. cbn [sall]. rewrite F2, HP1, F3. cbn [andb].
    split; [rewrite sall_lower by (intro; apply lower_char_facts); now apply sall_rstrip|].
    cbn [sall] in Hno. apply andb_true_iff in Hno. destruct Hno as [N1 N2]. split.
    + rewrite N1. cbn [andb]. rewrite sall_lower; [now apply sall_rstrip|]. intro a. f_equal. apply lower_char_facts.
    + cbn [commented] in *. now rewrite F4, F5.
  - split; [apply (sall_impl plain); auto; intro a; unfold plain, notcr; rewrite andb_true_iff; tauto|].
    rewrite pieces_join by auto. split; [|constructor]. constructor; [apply strip_idem|constructor].
  - cbn [open_ok]. intro Hc. assert (c = "["%char) as ->.
    { apply Ascii.eqb_eq. rewrite <- F7, Hc. reflexivity. }
    rewrite pieces_join by auto. cbn [hd]. apply header_closeless in HH. rewrite stail_lower, stail_rstrip.
    unfold closeless in *. rewrite sall_lower by (intro a; f_equal; apply lower_char_facts).
    destruct o as [|a o]; cbn [append stail] in *.
    + split; [reflexivity|now apply sall_strip].
    + rewrite sall_app in HH. apply andb_true_iff in HH. destruct HH as [HH1 HH2]. cbn [sall] in HH2. apply andb_true_iff in HH2. destruct HH2 as [_ HH2].
      split; [now apply sall_rstrip|now apply sall_strip].
Qed.

Lemma commented_startswith s : startswith s "#" || startswith s ";" = false -> commented s = false.
Proof.
  rewrite !startswith_char. unfold commented. destruct s as [|a s]; [reflexivity|]. now rewrite (Ascii.eqb_sym "#"), (Ascii.eqb_sym ";").
Qed.
Lemma raw_header st ind s st' : raw_cfg (r_cfg st) -> sall plain s = true -> stripped s -> commented s = false ->
  read_header st ind s = Ok st' -> raw_cfg (r_cfg st').
Proof.
  intros H Hp Hs Hc. unfold read_header. destruct (header s) as [h|] eqn:EH.
  - destruct (dmem (c_sec (r_cfg st)) h); [discriminate|]. intro E. inversion E; subst. cbn [r_cfg].
    destruct (String.eqb h "DEFAULT"); auto. apply raw_put; auto; [split; constructor|]. right. eapply header_name; eauto.
  - destruct (r_sec st) as [sec|]; [|discriminate]. destruct (option_of s) as [[o v]|] eqn:EO; [|discriminate].
    destruct (sec_get (r_cfg st) sec) as [d|] eqn:ES; [|discriminate].
    destruct (String.eqb_spec o "") as [->|N]; cbn [orb]; [discriminate|]. destruct (dmem d (lower (rstrip o))); [discriminate|].
    intro E. inversion E; subst. cbn [r_cfg]. destruct (raw_get _ _ _ H ES) as [[Hw Hf] Hn]. apply raw_put; auto.
    split; [now apply wf_dset|]. apply forall_dset; auto. eapply item_line; eauto.
Qed.
Lemma raw_line st line st' : raw_cfg (r_cfg st) -> sall plain line = true -> read_line st line = Ok st' -> raw_cfg (r_cfg st').
Proof.
  intros H Hp. unfold read_line. pose proof (sall_strip _ _ Hp) as Hp2. pose proof (strip_idem line) as Hs.
  destruct (startswith (strip line) "#" || startswith (strip line) ";") eqn:EC.
  { intro E. inversion E; subst. auto. }
  apply commented_startswith in EC.
  destruct (String.eqb_spec (strip line) "") as [E0|N0].
  - destruct (r_sec st) as [sec|], (r_opt st) as [opt|]; intro E; inversion E; subst; auto. apply raw_more; auto; reflexivity.
  - destruct (r_sec st) as [sec|] eqn:ES; [destruct (r_opt st) as [opt|] eqn:EO; [destruct (Nat.ltb (r_ind st) (indent line)); [|eapply raw_header; eauto]|eapply raw_header; eauto]|eapply raw_header; eauto].
    intro E; inversion E; subst. apply raw_more; auto.
Qed.

Theorem parse_ok t c : parse t = Ok c -> cfg_ok c.
Proof.
  unfold parse. intro H.
  destruct (for_each (lines t) read_line (mkRd no_config None None 0)) as [st|e] eqn:E; [|discriminate]. cbn [bind] in H. inversion H; subst c.
  apply raw_cfg_finish. pose proof (lines_all_plain t) as HL. revert E HL.
  assert (raw_cfg (r_cfg (mkRd no_config None None 0))) as H0 by (repeat split; constructor).
  revert H0. generalize (mkRd no_config None None 0). generalize (lines t). clear H t.
  induction l as [|x l IH]; intros s0 H0 E HL; cbn [for_each] in E.
  - inversion E; subst. auto.
  - destruct (read_line s0 x) as [s1|e] eqn:E1; [|discriminate]. cbn [bind] in E. eapply IH; [|exact E|].
    + eapply raw_line; eauto. apply HL. now left.
    + intros y Hy. apply HL. now right.
Qed.
