(** Proofs about the files of a report (C82). *)
From Coq Require Import String Ascii Arith Bool Lia List.
From Verif Require Import Py PyFacts Params Pipeline TabRun BasisProofs PickleProofs ReportFile ReportFileSpec.
Import ListNotations.
Open Scope string_scope.

(** ** paths *)
Notation chars := list_ascii_of_string.
Lemma chars_app a b : chars (a ++ b) = (chars a ++ chars b)%list.
Proof. induction a; cbn; congruence. Qed.
Lemma slash_in s : has_slash s = true <-> In "/"%char (chars s).
Proof. induction s as [|c s IH]; cbn; [split; [discriminate|easy]|]. rewrite orb_true_iff, IH, Ascii.eqb_eq. tauto. Qed.
Lemma slash_out s : has_slash s = false <-> ~ In "/"%char (chars s).
Proof. rewrite <- slash_in. destruct (has_slash s); split; intros; congruence. Qed.
Lemma slash_app a b : has_slash (a ++ b) = (has_slash a || has_slash b)%bool.
Proof. induction a as [|c a IH]; cbn; [reflexivity|]. now rewrite IH, orb_assoc. Qed.
Lemma basename_bare s : has_slash s = false -> basename s = s.
Proof. destruct s; [reflexivity|]. cbn [basename]. now intros ->. Qed.
Lemma basename_dir d s : has_slash s = false -> basename (d ++ "/" ++ s) = s.
Proof.
  intro H. induction d as [|c d IH].
  - cbn [append]. cbn [basename]. cbn [has_slash Ascii.eqb orb]. change (Ascii.eqb "/" "/") with true. cbn [orb]. now apply basename_bare.
  - cbn [append]. cbn [basename]. assert (has_slash (String c (d ++ String "/" s)) = true) as ->; [|exact IH]. cbn [has_slash]. rewrite slash_app. cbn. now rewrite !orb_true_r.
Qed.
Lemma dirname_bare s : has_slash s = false -> dirname s = "".
Proof. destruct s as [|c s]; [reflexivity|]. cbn. rewrite orb_false_iff. intros [_ ->]. reflexivity. Qed.
Lemma dirname_dir d s : has_slash s = false -> dirname (d ++ "/" ++ s) = d.
Proof.
  intro H. induction d as [|c d IH]; [cbn; now rewrite H|]. cbn [append dirname]. assert (has_slash (d ++ String "/" s) = true) as ->; [|cbn [append] in IH; now rewrite IH]. rewrite slash_app. cbn. now rewrite orb_true_r.
Qed.
Lemma basename_names p d f : names p d f -> basename p = f.
Proof. intros [N [->|[-> _]]]; apply slash_out in N; [now apply basename_dir|now apply basename_bare]. Qed.
Lemma dirname_names p d f : names p d f -> dirname p = d.
Proof. intros [N [->|[-> ->]]]; apply slash_out in N; [now apply dirname_dir|now apply dirname_bare]. Qed.
Lemma names_basename p : exists d, names p d (basename p).
Proof.
  induction p as [|c p IH]; [exists ""; split; [intros []|right; auto]|]. cbn [basename]. destruct (has_slash (String c p)) eqn:H.
  - cbn [has_slash] in H. destruct (has_slash p) eqn:HP.
    + destruct IH as [d [N [E|[E ->]]]]; [exists (String c d); split; [exact N|left; cbn [append]; f_equal; exact E]|]. apply slash_out in N. rewrite <- E in N. congruence.
    + rewrite orb_false_r in H. apply Ascii.eqb_eq in H as ->. rewrite (basename_bare _ HP). exists "". split; [now apply slash_out|]. left. reflexivity.
  - exists "". split; [now apply slash_out|]. right. auto.
Qed.
Lemma recorded_iff plots f : recorded plots f <-> In f (map (fun kf => basename (snd kf)) plots).
Proof.
  split.
  - intros (k & p & H & d & N). apply in_map_iff. exists (k, p). split; [now apply basename_names with d|exact H].
  - intro H. apply in_map_iff in H as ([k p] & <- & H). exists k, p. split; [exact H|apply names_basename].
Qed.
Lemma in_dir_names rel f : ~ In "/"%char (chars f) -> names (in_dir rel f) rel f.
Proof. intro N. split; [exact N|]. unfold in_dir. destruct (String.eqb_spec rel "") as [->|]; [right; auto|left; reflexivity]. Qed.
Lemma before_dot_app s r : ~ In "."%char (chars s) -> before_dot (s ++ String "." r) = s.
Proof. induction s as [|c s IH]; intro N; [reflexivity|]. cbn [append before_dot]. destruct (Ascii.eqb_spec c ".") as [->|]; [destruct N; now left|]. rewrite IH; [reflexivity|]. intro H. apply N. now right. Qed.
Lemma str_app a b c : (a ++ b) ++ c = a ++ (b ++ c).
Proof. induction a; cbn; congruence. Qed.
Lemma bare_app a b : ~ In "/"%char (chars a) -> ~ In "/"%char (chars b) -> ~ In "/"%char (chars (a ++ b)).
Proof. intros A B. rewrite chars_app. intro H. apply in_app_or in H. tauto. Qed.
Lemma texname_eq c : base_name c -> before_dot (basename (c ++ "_results.pdf")) ++ ".tex" = c ++ "_results.tex".
Proof.
  intros [S D]. rewrite basename_bare.
  - change "_results.pdf" with ("_results" ++ String "." "pdf"). rewrite <- str_app, before_dot_app; [now rewrite str_app|]. rewrite chars_app. intro H. apply in_app_or in H as [H|H]; [auto|]. cbn in H. intuition discriminate.
  - apply slash_out, bare_app; [exact S|]. cbn. intuition discriminate.
Qed.

(** ** compile *)
Section Compile.
Variables (F : Type) (tex : doc -> F) (document : (string -> bool) -> res doc) (compiler : string -> dict F -> option (dict F)).
Lemma copy_ok out l : forall temp t, copy_deps F out temp l = (t, Ok tt) -> forall f, (In f l -> dget t f = dget out f /\ dget out f <> None) /\ (~ In f l -> dget t f = dget temp f).
Proof.
  induction l as [|a l IH]; intros temp t E f; cbn [copy_deps] in E; [injection E as <-; split; [easy|auto]|]. destruct (dget out a) as [x|] eqn:G; [|discriminate]. destruct (IH _ _ E f) as [A B]. split.
  - intro H. destruct (in_dec string_dec f l) as [I|N]; [now apply A|]. destruct H as [->|H]; [|contradiction]. rewrite (B N), dget_dset_same, G. split; congruence.
  - intro N. rewrite B by (intro; apply N; now right). apply dget_dset_other. intros ->. apply N. now left.
Qed.
Lemma copy_total out l : (forall f, In f l -> exists x, dget out f = Some x) -> forall temp, exists t, copy_deps F out temp l = (t, Ok tt).
Proof. induction l as [|a l IH]; intros H temp; cbn [copy_deps]; [eauto|]. destruct (H a) as [x ->]; [now left|]. apply IH. intros; apply H; now right. Qed.
Lemma copy_fails out l f : In f l -> dget out f = None -> forall temp, exists t, copy_deps F out temp l = (t, Err FileNotFoundError).
Proof. induction l as [|a l IH]; intros H N temp; [easy|]. cbn [copy_deps]. destruct (dget out a) as [x|] eqn:G; [|eauto]. destruct H as [->|H]; [congruence|now apply IH]. Qed.
Lemma compile_spec pdf l w : let '(w', r) := compile F tex document compiler pdf l w in let texname := before_dot (basename pdf) ++ ".tex" in
  r_plots w' = r_plots w /\
  ( (exists e temp, r = Err e /\ r_out w' = r_out w /\ r_temp w' = Some temp) \/
    (exists temp d, copy_deps F (r_out w) [] l = (temp, Ok tt) /\ document (dmem temp) = Ok d /\
       let t0 := dset temp texname (tex d) in let out := dset (r_out w) texname (tex d) in
       match runs F compiler 3 texname t0 with
       | (t, false) => r = Ok tt /\ r_out w' = out /\ r_temp w' = Some t
       | (t, true) => match dget t pdf with None => r = Err FileNotFoundError /\ r_out w' = out /\ r_temp w' = Some t | Some x => r = Ok tt /\ r_out w' = dset out pdf x /\ r_temp w' = None end
       end)).
Proof.
  unfold compile. destruct (copy_deps F (r_out w) [] l) as [temp r] eqn:C. destruct r as [[]|e]; [|split; [reflexivity|left; eexists _, _; cbn; eauto]].
  destruct (document (dmem temp)) as [d|e] eqn:D; [|split; [reflexivity|left; eexists _, _; cbn; eauto]].
  destruct (runs F compiler 3 _ _) as [t ran] eqn:R. destruct ran; cbn [negb].
  - destruct (dget t pdf) as [x|] eqn:P; (split; [reflexivity|right; exists temp, d; split; [reflexivity|split; [exact D|]]; cbn zeta; rewrite R; rewrite P; cbn; auto]).
  - split; [reflexivity|]. right. exists temp, d. split; [reflexivity|]. split; [exact D|]. cbn zeta. rewrite R. cbn. auto.
Qed.
End Compile.

Section Report.
Variables (F : Type) (tex : doc -> F) (document : (string -> bool) -> res doc) (compiler : string -> dict F -> option (dict F)).
Variables (conf_base : string).
Hypothesis BN : base_name conf_base.
Notation T := (conf_base ++ "_results.tex").
Notation PDF := (conf_base ++ "_results.pdf").
Notation report := (report_files F tex document compiler conf_base).
Lemma tex_pdf : T <> PDF.
Proof. clear. induction conf_base as [|c s IH]; cbn; [discriminate|]. intro H. injection H. exact IH. Qed.

Theorem report_place w : r_cwd w = Start -> r_cwd (fst (report w)) = Start.
Proof. intro H. unfold report_files. destruct (r_plots w); [|exact H]. destruct (compile _ _ _ _ _ _ _). reflexivity. Qed.

Theorem report_writes w w' : report w = (w', Ok tt) -> exists plots ex d, r_plots w = Some plots /\ r_plots w' = Some plots /\
  (forall f, ex f = true <-> recorded plots f) /\ document ex = Ok d /\ dget (r_out w') T = Some (tex d) /\
  (forall f, f <> T -> f <> PDF -> dget (r_out w') f = dget (r_out w) f) /\
  exists t0, workplace (r_out w) plots T (tex d) t0 /\
  match runs F compiler 3 T t0 with
  | (t, true) => (exists x, dget t PDF = Some x /\ dget (r_out w') PDF = Some x) /\ r_temp w' = None
  | (t, false) => dget (r_out w') PDF = dget (r_out w) PDF /\ r_temp w' = Some t
  end.
Proof.
  unfold report_files. destruct (r_plots w) as [plots|] eqn:P; [|discriminate]. set (l := map _ plots). pose proof (compile_spec F tex document compiler PDF l (here F w Out)) as C.
  destruct (compile _ _ _ _ _ _ _) as [w1 r]. rewrite (texname_eq _ BN) in C. cbn zeta in C. destruct C as [P1 C]. intro E. injection E as <- ->. cbn [here r_plots r_out r_temp] in *.
  destruct C as [(e & temp & Z & _)|(temp & d & CD & DD & C)]; [discriminate|]. exists plots, (dmem temp), d. split; [reflexivity|]. split; [congruence|].
  assert (forall f, dmem temp f = true <-> recorded plots f) as EX.
  { intro f. rewrite recorded_iff. fold l. destruct (copy_ok F _ _ _ _ CD f) as [A B]. unfold dmem. destruct (in_dec string_dec f l) as [I|N].
    - destruct (A I) as [-> Q]. destruct (dget (r_out w) f); [split; auto|contradiction].
    - rewrite (B N). cbn. split; [discriminate|contradiction]. }
  split; [exact EX|]. split; [exact DD|].
  assert (workplace (r_out w) plots T (tex d) (dset temp T (tex d))) as W.
  { split; [apply dget_dset_same|]. intros f N. rewrite dget_dset_other by auto. destruct (copy_ok F _ _ _ _ CD f) as [A B]. rewrite recorded_iff. fold l. split; [intro I; now apply A|intro I; now apply B]. }
  destruct (runs F compiler 3 T (dset temp T (tex d))) as [t [|]] eqn:R.
  - destruct (dget t PDF) as [x|] eqn:X; [|destruct C as [C _]; discriminate]. destruct C as (_ & O & TE). rewrite O.
    split; [rewrite dget_dset_other by exact tex_pdf; apply dget_dset_same|]. split; [intros f N1 N2; now rewrite !dget_dset_other by auto|].
    exists (dset temp T (tex d)). split; [exact W|]. rewrite R. split; [|exact TE]. exists x. split; [exact X|apply dget_dset_same].
  - destruct C as (_ & O & TE). rewrite O. split; [apply dget_dset_same|]. split; [intros f N1 N2; now rewrite !dget_dset_other by auto|].
    exists (dset temp T (tex d)). split; [exact W|]. rewrite R. split; [|exact TE]. apply dget_dset_other. apply not_eq_sym, tex_pdf.
Qed.
Theorem report_fails w w' e : report w = (w', Err e) -> r_plots w' = r_plots w /\ forall f, f <> T -> dget (r_out w') f = dget (r_out w) f.
Proof.
  unfold report_files. destruct (r_plots w) as [plots|] eqn:P; [|intro E; injection E as <- _; auto]. set (l := map _ plots). pose proof (compile_spec F tex document compiler PDF l (here F w Out)) as C.
  destruct (compile _ _ _ _ _ _ _) as [w1 r]. rewrite (texname_eq _ BN) in C. cbn zeta in C. destruct C as [P1 C]. intro E. injection E as <- ->. cbn [here r_plots r_out r_temp] in *. split; [congruence|].
  intros f N. destruct C as [(e' & temp & Z & O & _)|(temp & d & CD & DD & C)]; [now rewrite O|].
  destruct (runs F compiler 3 T _) as [t [|]]; [destruct (dget t PDF)|]; destruct C as (Z & O & _); try discriminate. rewrite O. now apply dget_dset_other.
Qed.
Theorem report_made w plots : r_plots w = Some plots -> kept w -> (forall ex, exists d, document ex = Ok d) ->
  (forall t, exists t', compiler T t = Some t' /\ exists x, dget t' PDF = Some x) -> exists w', report w = (w', Ok tt) /\ r_temp w' = None.
Proof.
  intros P K D C. unfold report_files. rewrite P. set (l := map _ plots).
  destruct (copy_total F (r_out w) l) with (temp := @nil (string * F)) as [temp CT].
  { intros f H. unfold kept in K. rewrite P in K. apply K. now apply recorded_iff. }
  unfold compile. cbn [here r_out]. rewrite CT. destruct (D (dmem temp)) as [d ->]. rewrite (texname_eq _ BN). cbn [runs].
  destruct (C (dset temp T (tex d))) as (t1 & -> & _). destruct (C t1) as (t2 & -> & _). destruct (C t2) as (t3 & -> & x & X). cbn [negb]. rewrite X. eexists. split; reflexivity.
Qed.
Theorem report_missing w plots f : r_plots w = Some plots -> recorded plots f -> dget (r_out w) f = None -> exists w', report w = (w', Err FileNotFoundError) /\ r_out w' = r_out w.
Proof.
  intros P R N. unfold report_files. rewrite P. apply recorded_iff in R. unfold compile. cbn [here r_out]. destruct (copy_fails F (r_out w) _ f R N []) as [t ->]. eexists. split; reflexivity.
Qed.
Theorem report_keeps w : kept w -> kept (fst (report w)).
Proof.
  intro K. destruct (report w) as [w' [u|e]] eqn:E; cbn [fst].
  - destruct u. destruct (report_writes _ _ E) as (plots & ex & d & P & P' & _ & _ & TX & OT & t0 & _ & M). unfold kept in *. rewrite P in K. rewrite P'. intros f R. destruct (K f R) as [x X].
    destruct (string_dec f T) as [->|N1]; [eauto|]. destruct (string_dec f PDF) as [->|N2]; [|rewrite OT by auto; eauto].
    destruct (runs F compiler 3 T t0) as [t [|]]; [destruct M as [(y & _ & ->) _]; eauto|destruct M as [-> _]; eauto].
  - unfold report_files in E. unfold kept in *. destruct (r_plots w) as [plots|] eqn:P; [|injection E as <- _; now rewrite P].
    pose proof (compile_spec F tex document compiler PDF (map (fun kf => basename (snd kf)) plots) (here F w Out)) as C. destruct (compile _ _ _ _ _ _ _) as [w1 r]. rewrite (texname_eq _ BN) in C. cbn zeta in C.
    injection E as <- ->. cbn [here r_plots r_out] in *. destruct C as [P1 C]. rewrite P1, P. intros f R. destruct (K f R) as [x X].
    destruct C as [(e' & temp & Z & O & _)|(temp & d & CD & DD & C)]; [rewrite O; eauto|].
    destruct (runs F compiler 3 T _) as [t [|]]; [destruct (dget t PDF)|]; destruct C as (Z & O & _); try discriminate. rewrite O. destruct (string_dec f T) as [->|N]; [rewrite dget_dset_same; eauto|rewrite dget_dset_other by auto; eauto].
Qed.
End Report.

(** ** plots *)
Section Plots.
Variables (F : Type) (rel conf_base : string).
Hypothesis BN : base_name conf_base.
Lemma suffix_bare t : ~ In "/"%char (chars (conf_base ++ plot_suffix t)).
Proof. apply bare_app; [apply BN|]. destruct t; cbn; intuition discriminate. Qed.
Lemma suffix_inj t t' : conf_base ++ plot_suffix t = conf_base ++ plot_suffix t' -> t = t'.
Proof. clear. induction conf_base as [|c s IH]; cbn [append]; [destruct t, t'; cbn; intro; congruence|]. intro H. injection H. exact IH. Qed.
(** what is recorded after plots: the older records and those of [ts] *)
Lemma recorded_dset d k p f : recorded (dset d k p) f -> f = basename p \/ recorded d f.
Proof.
  rewrite !recorded_iff, !in_map_iff. intros ([k' p'] & <- & H). cbn [snd]. apply in_dset in H as [H|H]; [injection H as _ <-; auto|]. right. exists (k', p'). auto.
Qed.
Lemma step_spec draw w sp t w' sp' : plot_step F rel conf_base draw (w, sp) t = Ok (w', sp') -> (forall p, sp = Some p -> dirname p = rel) -> kept w ->
  kept w' /\ (forall p, sp' = Some p -> dirname p = rel) /\ r_temp w' = r_temp w /\ r_cwd w' = r_cwd w.
Proof.
  unfold plot_step. destruct (saveto rel conf_base sp t) as [path sp1] eqn:S. destruct (draw t) as [x|]; [|discriminate]. cbn [bind]. intros E SP K. injection E as <- <-. cbn [r_temp r_cwd].
  assert (dirname path = rel /\ (forall p, sp1 = Some p -> dirname p = rel)) as [D SP1].
  { pose proof (in_dir_names rel _ (suffix_bare t)) as N. apply dirname_names in N. destruct t, sp as [p|]; cbn in S; injection S as <- <-; (split; [auto|]); try discriminate; auto. }
  split; [|auto]. unfold kept in *. cbn [r_plots r_out]. rewrite D, String.eqb_refl. intros f R. apply recorded_dset in R. destruct (string_dec f (basename path)) as [->|N].
  - rewrite dget_dset_same. eauto.
  - rewrite dget_dset_other by auto. destruct R as [R|R]; [contradiction|]. destruct (r_plots w) as [d|]; [now apply K|]. apply recorded_iff in R. destruct R.
Qed.
Theorem plots_keep draw types : forall w sp, (forall p, sp = Some p -> dirname p = rel) -> kept w -> kept (fst (plot_cmd F rel conf_base draw types (w, sp))).
Proof.
  induction types as [|t l IH]; intros w sp SP K; cbn [plot_cmd]; [exact K|]. destruct (plot_step _ _ _ _ _ _) as [[w1 sp1]|] eqn:E; [|exact K]. destruct (step_spec _ _ _ _ _ _ E SP K) as (K1 & SP1 & _). now apply IH.
Qed.
(** records of plots without saveplot *)
Definition record_ok (plots : option (dict string)) (made : ptype -> Prop) : Prop :=
  match plots with None => forall t, ~ made t | Some d => NoDup (dkeys d) /\ forall k p, In (k, p) d <-> exists t, made t /\ k = ptext t ++ "_plot" /\ p = in_dir rel (conf_base ++ plot_suffix t) end.
Lemma ptext_inj t t' : ptext t ++ "_plot" = ptext t' ++ "_plot" -> t = t'.
Proof. destruct t, t'; cbn; intro; congruence. Qed.
Lemma in_dset_iff {V} (d : dict V) k v k' v' : NoDup (dkeys d) -> (In (k', v') (dset d k v) <-> (k' = k /\ v' = v) \/ (k' <> k /\ In (k', v') d)).
Proof.
  intro ND. pose proof (wf_dset d k v ND) as ND'. split.
  - intro H. apply in_dget in H; [|exact ND']. destruct (string_dec k' k) as [->|N]; [rewrite dget_dset_same in H; injection H as <-; auto|]. rewrite dget_dset_other in H by auto. apply dget_in in H. auto.
  - intros [[-> ->]|[N H]]; apply dget_in; [apply dget_dset_same|]. rewrite dget_dset_other by auto. now apply in_dget.
Qed.
Lemma cmd_records draw types : forall w made w' r, record_ok (r_plots w) made -> plot_cmd F rel conf_base draw types (w, None) = (w', r) -> r = Ok tt -> record_ok (r_plots w') (fun t => made t \/ In t types).
Proof.
  induction types as [|t l IH]; intros w made w' r R E OKr; cbn [plot_cmd] in E.
  - injection E as <- _. unfold record_ok in *. destruct (r_plots w) as [d|].
    + destruct R as [ND R]. split; [exact ND|]. intros k p. rewrite R. split; intros (t & M & H); exists t; [tauto|destruct M as [M|[]]; tauto].
    + intros t [H|[]]. now apply (R t).
  - destruct (plot_step _ _ _ _ _ _) as [[w1 sp1]|] eqn:S; [|subst r; discriminate]. unfold plot_step in S.
    assert (saveto rel conf_base None t = (in_dir rel (conf_base ++ plot_suffix t), None)) as Q by (destruct t; reflexivity). rewrite Q in S. destruct (draw t) as [x|]; [|discriminate]. cbn [bind] in S. injection S as <- <-.
    assert (record_ok (r_plots w') (fun t' => (made t' \/ t' = t) \/ In t' l)) as Z.
    { eapply IH; [|exact E|exact OKr]. unfold record_ok in *. cbn [r_plots]. destruct (r_plots w) as [d|].
      - destruct R as [ND R]. split; [now apply wf_dset|]. intros k p. rewrite in_dset_iff by exact ND. rewrite R. split.
        + intros [[-> ->]|[N (t' & M & -> & ->)]]; [exists t; auto|exists t'; auto].
        + intros (t' & M & -> & ->). destruct (string_dec (ptext t' ++ "_plot") (ptext t ++ "_plot")) as [Q1|N]; [left; apply ptext_inj in Q1 as ->; auto|]. right. split; [exact N|]. exists t'. destruct M as [M| ->]; [auto|contradiction].
      - split; [apply wf_dset; constructor|]. intros k p. cbn. split.
        + intros [H|[]]. injection H as <- <-. exists t. auto.
        + intros (t' & [M| ->] & -> & ->); [destruct (R t' M)|auto]. }
    unfold record_ok in *. destruct (r_plots w') as [d|].
    + destruct Z as [ND Z]. split; [exact ND|]. intros k p. rewrite Z. split; intros (t' & M & H); exists t'; (split; [|exact H]); cbn in *; intuition.
    + intros t' M. apply (Z t'). cbn in M. intuition.
Qed.
Lemma session_records cmds : forall (w : files F) made, record_ok (r_plots w) made -> (forall c, In c cmds -> forall t, In t (snd c) -> exists x, fst c t = Ok x) ->
  record_ok (r_plots (plot_session rel conf_base cmds w)) (fun t => made t \/ exists c, In c cmds /\ In t (snd c)).
Proof.
  induction cmds as [|c cmds IH]; intros w made R D; cbn [plot_session fold_left].
  - unfold record_ok in *. destruct (r_plots w) as [d|].
    + destruct R as [ND R]. split; [exact ND|]. intros k p. rewrite R. split; intros (t & M & H); exists t; [tauto|destruct M as [M|(? & [] & _)]; tauto].
    + intros t [H|(? & [] & _)]. now apply (R t).
  - fold (plot_session rel conf_base cmds (fst (plot_cmd F rel conf_base (fst c) (snd c) (w, None)))).
    assert (forall types st, (forall t, In t types -> exists x, fst c t = Ok x) -> snd (plot_cmd F rel conf_base (fst c) types st) = Ok tt) as G.
    { clear. induction types as [|t l IH]; intros [w sp] H; cbn [plot_cmd]; [reflexivity|]. unfold plot_step. destruct (saveto _ _ _ _) as [p sp1]. destruct (H t) as [x ->]; [now left|]. cbn [bind]. apply IH. intros; apply H; now right. }
    specialize (G (snd c) (w, None) (D c (or_introl eq_refl))). destruct (plot_cmd F rel conf_base (fst c) (snd c) (w, None)) as [w1 r] eqn:E. cbn [fst snd] in *.
    pose proof (cmd_records _ _ _ _ _ _ R E G) as R1. pose proof (IH w1 _ R1 (fun c' H => D c' (or_intror H))) as Z.
    assert (forall t, ((made t \/ In t (snd c)) \/ (exists c', In c' cmds /\ In t (snd c'))) <-> (made t \/ exists c', In c' (c :: cmds) /\ In t (snd c'))) as EQ.
    { intro t. cbn. split.
      - intros [[H|H]|(c' & H1 & H2)]; [auto|right; exists c; auto|right; exists c'; auto].
      - intros [H|(c' & [<-|H1] & H2)]; [auto|auto|right; exists c'; auto]. }
    unfold record_ok in *. destruct (r_plots (plot_session rel conf_base cmds w1)) as [d|].
    + destruct Z as [ND Z]. split; [exact ND|]. intros k p. rewrite Z. split; intros (t & M & H); exists t; (split; [|exact H]); now apply EQ.
    + intros t M. apply (Z t). now apply EQ.
Qed.
Lemma session_kept cmds : forall (w : files F), kept w -> kept (plot_session rel conf_base cmds w).
Proof. induction cmds as [|c cmds IH]; intros w K; cbn [plot_session fold_left]; [exact K|]. apply (IH (fst (plot_cmd F rel conf_base (fst c) (snd c) (w, None)))). now apply plots_keep. Qed.
Lemma record_recorded d made : record_ok (Some d) made -> forall f, recorded d f <-> exists t, made t /\ f = conf_base ++ plot_suffix t.
Proof.
  intros [ND R] f. rewrite recorded_iff, in_map_iff. split.
  - intros ([k p] & <- & H). apply R in H as (t & M & _ & ->). exists t. split; [exact M|]. cbn [snd]. apply (basename_names _ rel). apply in_dir_names, suffix_bare.
  - intros (t & M & ->). exists (ptext t ++ "_plot", in_dir rel (conf_base ++ plot_suffix t)). split; [cbn [snd]; apply (basename_names _ rel), in_dir_names, suffix_bare|]. apply R. eauto.
Qed.
End Plots.
