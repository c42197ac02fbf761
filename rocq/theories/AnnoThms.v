(** Statements about the text in a panel (C80) and examples. *)
From Coq Require Import ZArith Reals String Ascii Arith Bool Lra Lia List.
From Flocq Require Import Core.
From Verif Require Import Py PyFacts PyFloat Params ParamsSpec ParamsProofs Likelihood Format FormatProofs Stats PostProc PostProcSpec ParTable ParTableSpec DerivTab DerivTabSpec DerivTabProofs DerivTabThms TexLabels ChainPlot ChainPlotThms TexProofs Anno AnnoSpec AnnoProofs.
Import ListNotations.
Open Scope R_scope.
Open Scope string_scope.

Lemma nth_error_app_some {A} (l l' : list A) i x : nth_error l i = Some x -> nth_error (l ++ l') i = Some x.
Proof. intro H. rewrite nth_error_app1; [exact H|]. apply nth_error_Some. congruence. Qed.

Lemma ten i : (1 <= i <= 10)%nat -> exists l, dletter None i l.
Proof.
  intro Hi. assert (i = 1 \/ i = 2 \/ i = 3 \/ i = 4 \/ i = 5 \/ i = 6 \/ i = 7 \/ i = 8 \/ i = 9 \/ i = 10)%nat as Q by lia.
    assert (forall a x b, combine (seq 1 10) ["b"; "c"; "d"; "e"; "f"; "g"; "h"; "i"; "j"; "k"] = (a ++ (i, x) :: b)%list -> (forall j, In j (map fst a) -> j <> i) -> exists l, dletter None i l) as K.
    { intros aa x b E N. exists x, aa, b. split; [exact E|]. intro I. exact (N i I eq_refl). }
    decompose [or] Q; subst i; [eapply (K []); [reflexivity|]|eapply (K [_]); [reflexivity|]|eapply (K [_; _]); [reflexivity|]|eapply (K [_; _; _]); [reflexivity|]|eapply (K [_; _; _; _]); [reflexivity|]
      |eapply (K [_; _; _; _; _]); [reflexivity|]|eapply (K [_; _; _; _; _; _]); [reflexivity|]|eapply (K [_; _; _; _; _; _; _]); [reflexivity|]|eapply (K [_; _; _; _; _; _; _; _]); [reflexivity|]|eapply (K [_; _; _; _; _; _; _; _; _]); [reflexivity|]];
      cbn; intros j J; repeat (destruct J as [<-|J]; [discriminate|]); destruct J.
Qed.

Lemma bare_ok s : nodollar s = bare s.
Proof. induction s as [|c s IH]; [reflexivity|]. cbn [nodollar]. unfold bare in *. cbn [list_ascii_of_string filter]. destruct (Ascii.eqb c "$"); cbn [negb string_of_list_ascii]; congruence. Qed.

Section Anno.
Variables (f2 str : R -> string) (dexp : R -> Z) (ends0 : R -> bool) (fuel : nat).
Notation measured := (measured f2 str dexp ends0 fuel).
Notation annotation := (annotation f2 str dexp ends0 fuel).

Lemma measured_line label v e unit line : measured label v e unit = Ok line -> line_for f2 str dexp label unit v e line.
Proof.
  unfold Anno.measured. destruct (rltb (1 / 10 ^ 15) e) eqn:L.
  - apply rltb_true in L. destruct (sigfig dexp ends0 fuel v e None) as [[[m e1] e2]|] eqn:S; [|discriminate]. cbn [bind fst snd]. unfold with_error. rewrite bare_ok. intro H. injection H as <-. split; [|intro; lra].
    intros _. exists m, e1. split; [now apply sigfig_stands in S|reflexivity].
  - apply rltb_false in L. unfold plain. rewrite bare_ok. intro H. injection H as <-. split; [intro; lra|reflexivity].
Qed.

Section Text.
Variables (pp : list string) (letters : option (list (nat * string))) (value : dict R) (uparams medparams : option (dict R)).
Variables (derived : option derived_table) (file : option (dict (list R) * list string)) (num pnum : nat) (lines : list string).
Hypothesis H : annotation pp letters value uparams medparams derived file num pnum = Ok lines.

Lemma anno_parts : exists d els mass, tex_labels pp letters (dkeys value) = Ok d /\ lines = (els ++ mass)%list /\ length els = 3%nat /\
  (forall i p, nth_error ["per"; "k"; "e"] i = Some p -> exists line, nth_error els i = Some line /\
     element_line f2 str dexp ends0 fuel value uparams medparams pnum p (match dget d (key p pnum) with Some t => t | None => key p pnum end) = Ok line) /\
  match derived with
  | None => mass = []
  | Some dt => match file with
               | Some (chains, nulls) => mass_of_chain f2 str dexp ends0 fuel num chains nulls dt pnum = Ok mass
               | None => match uparams with Some u => mass_of_error f2 str dexp ends0 fuel u dt pnum = Ok mass | None => mass = [] end
               end
  end.
Proof.
  unfold Anno.annotation in H. destruct (labels_of _ _ _ _) as [labels|] eqn:EL; [|discriminate]. cbn [bind] in H. destruct (map_res _ _) as [els|] eqn:EM; [|discriminate]. cbn [bind] in H.
  match type of H with bind ?z _ = _ => destruct z as [mass|] eqn:EZ; [|discriminate] end. cbn [bind] in H. injection H as <-.
  destruct (labels_inv _ _ _ _ _ EL) as [LL LN]. apply map_res_inv in EM as [ML MN]. cbn [map length] in LL. rewrite combine_length, LL in ML. cbn [length Nat.min] in ML.
  destruct (LN 0%nat (key "per" pnum) eq_refl) as (d & D & _). exists d, els, mass. split; [exact D|]. split; [reflexivity|]. split; [exact ML|]. split.
  - intros i p Hi. destruct (LN i (key p pnum)) as (d' & D' & E'). { rewrite nth_error_map, Hi. reflexivity. } rewrite D in D'. injection D' as <-.
    destruct (nth_error els i) as [line|] eqn:EE; [|apply nth_error_None in EE; assert (i < length ["per"; "k"; "e"])%nat by (apply nth_error_Some; congruence); cbn in *; lia].
    exists line. split; [reflexivity|]. destruct (MN i line EE) as ([p' l'] & C & Q). apply nth_combine in C as [C1 C2]. cbn [fst snd] in *. rewrite Hi in C1. injection C1 as <-. rewrite E' in C2. injection C2 as <-. exact Q.
  - destruct derived as [dt|]; [|now injection EZ]. destruct file as [[chains nulls]|]; [exact EZ|]. destruct uparams; [exact EZ|now injection EZ].
Qed.

Lemma unit_ok p i : nth_error ["per"; "k"; "e"] i = Some p -> element_unit p (unit_of_element p).
Proof. destruct i as [|[|[|i]]]; intro E; [injection E as <-; left|injection E as <-; right; left|injection E as <-; right; right|destruct i; discriminate]; split; reflexivity. Qed.

Theorem anno_elements : exists d, tex_labels pp letters (dkeys value) = Ok d /\ (derived = None -> length lines = 3%nat) /\ forall i p, nth_error ["per"; "k"; "e"] i = Some p ->
  exists v line u, dget value (key p pnum) = Some v /\ nth_error lines i = Some line /\ element_unit p u /\
    let label := match dget d (key p pnum) with Some t => t | None => key p pnum end in
    match uparams with
    | None => line = "$\mathregular{" ++ bare label ++ "}$ = " ++ f2 v ++ " " ++ u
    | Some us => exists v' e, match medparams with Some ms => dget ms (key p pnum) = Some v' | None => v' = v end /\ dget us (key p pnum) = Some e /\ line_for f2 str dexp label u v' e line
    end.
Proof.
  destruct anno_parts as (d & els & mass & D & -> & L & E & M). exists d. split; [exact D|]. split. { intro ED. rewrite ED in M. rewrite M, app_nil_r. exact L. } clear M. intros i p Hi. destruct (E i p Hi) as (line & N & EL).
  unfold element_line in EL. unfold dget_res in EL. destruct (dget value (key p pnum)) as [v|] eqn:V; [|discriminate]. cbn [bind] in EL.
  exists v, line, (unit_of_element p). split; [reflexivity|]. split; [apply nth_error_app_some; exact N|]. split; [now apply (unit_ok p i)|]. cbv zeta.
  destruct uparams as [us|]; [|unfold plain in EL; rewrite bare_ok in EL; injection EL as <-; reflexivity].
  destruct medparams as [ms|].
  - destruct (dget ms (key p pnum)) as [v'|]; [|discriminate]. cbn [bind] in EL. destruct (dget us (key p pnum)) as [e|]; [|discriminate]. cbn [bind] in EL. exists v', e. split; [reflexivity|]. split; [reflexivity|]. now apply measured_line.
  - cbn [bind] in EL. destruct (dget us (key p pnum)) as [e|]; [|discriminate]. cbn [bind] in EL. exists v, e. split; [reflexivity|]. split; [reflexivity|]. now apply measured_line.
Qed.

Theorem anno_summary us ms i p e med best col b : uparams = Some us -> medparams = Some ms -> wholes dexp ends0 -> nth_error ["per"; "k"; "e"] i = Some p ->
  dget us (key p pnum) = Some e -> dget ms (key p pnum) = Some med -> reported_for dexp ends0 fuel col best (e, med, b) -> 1 / 10 ^ 15 < e ->
  exists d u, tex_labels pp letters (dkeys value) = Ok d /\ element_unit p u /\
    nth_error lines i = Some ("$\mathregular{" ++ bare (match dget d (key p pnum) with Some t => t | None => key p pnum end) ++ "}$ = " ++ str med ++ " $\mathregular{\pm}$ " ++ str e ++ " " ++ u).
Proof.
  intros EU EM HW Hi Ge Gm (NE & RA & RB) He. destruct anno_parts as (d & els & mass & D & -> & L & E & _). exists d, (unit_of_element p). split; [exact D|]. split; [now apply (unit_ok p i)|].
  destruct (E i p Hi) as (line & N & EL). rewrite (nth_error_app_some els mass i line N). f_equal. unfold element_line, dget_res in EL. destruct (dget value (key p pnum)) as [v|]; [|discriminate]. cbn [bind] in EL.
  rewrite EU, EM, Gm, Ge in EL. cbn [bind] in EL. unfold Anno.measured in EL. rewrite (proj2 (rltb_true _ _) He) in EL.
  set (x := (quantile (841 / 1000) col - quantile (159 / 1000) col) / 2) in *. destruct (Rlt_le_dec 0 (round_sig x 2)) as [P|P].
  2:{ specialize (RA P). injection RA as -> _ _. assert (0 < 1 / 10 ^ 15) by (apply Rdiv_lt_0_compat; [lra|apply pow_lt; lra]). lra. }
  destruct (RB P) as (med' & e1 & e2 & best' & e3 & e4 & S1 & S2 & O). injection O as -> -> ->. destruct (sigfig_again dexp ends0 fuel x _ _ _ _ HW S1) as [-> A1].
  destruct (sigfig_again dexp ends0 fuel x _ _ _ _ HW S2) as [-> _]. rewrite A1 in EL. cbn [bind fst snd] in EL. unfold with_error in EL. rewrite bare_ok in EL. injection EL as <-. reflexivity.
Qed.

Theorem anno_mass chains nulls dt col : derived = Some dt -> file = Some (chains, nulls) -> (1 <= pnum <= num)%nat -> dget chains (key "mpsini" pnum) = Some col -> ~ In (key "mpsini" pnum) nulls ->
  dget dt (key "mpsini" pnum) = Some (quantile (159 / 1000) col, quantile (1 / 2) col, quantile (841 / 1000) col) ->
  exists l u col' line, dletter None pnum l /\ shown_as "mpsini" col col' u /\ length lines = 4%nat /\ nth_error lines 3 = Some line /\
    line_for f2 str dexp (dtex "mpsini" l) u (quantile (1 / 2) col') (spread col') line.
Proof.
  intros ED EF Hn Gc NN Gd. destruct anno_parts as (d & els & mass & _ & -> & L & _ & M). rewrite ED, EF in M. unfold mass_of_chain in M. destruct (derived_plot num None nulls chains) as [dp|] eqn:DP; [|discriminate].
  cbn [bind] in M. rewrite Gd in M. destruct (find _ (snd dp)) as [e|] eqn:FE; [|discriminate]. apply find_some in FE as [I EE]. apply String.eqb_eq in EE.
  destruct (plot_from _ _ _ _ _ DP e I) as (p & i & c & l & Hp & Hi & G & _ & DL & LE & TE & col' & _ & SH). rewrite EE in LE. apply key_inj in LE as [<- <-]; [|reflexivity|now apply derived_no_digit].
  rewrite Gc in G. injection G as <-. rewrite TE in M.
  assert (conversion (d_unit e) * 1 > 0 /\ col' = map (fun x => x * conversion (d_unit e)) col) as [CP CE].
  { destruct SH as [(_ & _ & -> & ->)|[(_ & _ & -> & ->)|[(Q & _)|(Q & _)]]]; try discriminate Q; unfold conversion; cbn [String.eqb Ascii.eqb Bool.eqb EARTH JUP SUN]; split; try lra.
    - symmetry. erewrite map_ext; [apply map_id|]. intro; lra. - reflexivity. }
  set (c := conversion (d_unit e)) in *. destruct (measured _ _ _ _) as [s|] eqn:ME; [|discriminate]. cbn [bind] in M. injection M as <-.
  exists l, (d_unit e), col', s. split; [exact DL|]. split; [exact SH|]. split; [rewrite app_length, L; reflexivity|]. split; [rewrite nth_error_app2, L by lia; reflexivity|].
  apply measured_line in ME. assert (forall q, quantile q col' = quantile q col * c) as QS by (intro q; rewrite CE; apply quantile_scale; lra).
  unfold spread. rewrite !QS. replace ((quantile (841 / 1000) col * c - quantile (159 / 1000) col * c) / 2) with ((quantile (1 / 2) col * c - quantile (159 / 1000) col * c + (quantile (841 / 1000) col * c - quantile (1 / 2) col * c)) / 2) by lra. exact ME.
Qed.
End Text.

Theorem anno_gaps pp letters value uparams medparams dt chains nulls num pnum lines q : annotation pp letters value uparams medparams None None num pnum = Ok lines ->
  (num <= 10)%nat -> dget dt (key "mpsini" pnum) = Some q -> In (key "mpsini" pnum) nulls ->
  annotation pp letters value uparams medparams (Some dt) (Some (chains, nulls)) num pnum = Err IndexError.
Proof.
  intros H Hn Gd HN. unfold Anno.annotation in *. destruct (labels_of _ _ _ _); [|discriminate]. cbn [bind] in *. destruct (map_res _ _); [|discriminate]. cbn [bind] in *.
  unfold mass_of_chain. destruct (derived_plot_total num None nulls chains) as [dp DP].
  { intros i Hi. apply ten. lia. }
  rewrite DP. cbn [bind]. rewrite Gd. destruct q as [[q1 q2] q3].
  destruct (find _ (snd dp)) as [e|] eqn:FE; [|reflexivity]. apply find_some in FE as [I EE]. apply String.eqb_eq in EE.
  destruct (plot_from _ _ _ _ _ DP e I) as (p & i & c & l & _ & _ & _ & NN & _ & LE & _). rewrite EE in LE. rewrite LE in HN. contradiction.
Qed.
Theorem anno_eleven pp letters value uparams medparams dt chains nulls num pnum lines : annotation pp letters value uparams medparams None None num pnum = Ok lines -> (10 < num)%nat ->
  annotation pp letters value uparams medparams (Some dt) (Some (chains, nulls)) num pnum = Err (KeyError "11").
Proof.
  intros H Hn. unfold Anno.annotation in *. destruct (labels_of _ _ _ _); [|discriminate]. cbn [bind] in *. destruct (map_res _ _); [|discriminate]. cbn [bind] in *.
  unfold mass_of_chain. rewrite (eleven num nulls chains Hn). reflexivity.
Qed.
Theorem anno_no_unit pp letters value us medparams dt num pnum lines e q1 q2 q3 : annotation pp letters value (Some us) medparams (Some dt) None num pnum = Ok lines ->
  dget us (key "mpsini" pnum) = Some e -> dget dt (key "mpsini" pnum) = Some (q1, q2, q3) ->
  length lines = 4%nat /\ (nth_error lines 3 = Some ("$\mathregular{" ++ key "mpsini" pnum ++ "}$ = " ++ f2 q2) \/
    exists m e', nth_error lines 3 = Some ("$\mathregular{" ++ key "mpsini" pnum ++ "}$ = " ++ str m ++ " $\mathregular{\pm}$ " ++ str e')).
Proof.
  intros H Ge Gd. destruct (anno_parts _ _ _ _ _ _ _ _ _ _ H) as (d & els & mass & _ & -> & L & _ & M). unfold mass_of_error in M. rewrite Ge, Gd in M.
  rewrite nth_error_app2, L by lia. rewrite app_length, L. destruct (rltb _ _).
  - destruct (sigfig _ _ _ _ _ _) as [[[m e1] e2]|]; [|discriminate]. cbn [bind fst snd] in M. injection M as <-. split; [reflexivity|]. right. exists m, e1. cbn [nth_error Nat.sub]. rewrite <- TexProofs.app_assoc_s. reflexivity.
  - injection M as <-. split; [reflexivity|]. left. cbn [nth_error Nat.sub]. rewrite <- TexProofs.app_assoc_s. reflexivity.
Qed.
End Anno.

(** ** when the text is written *)
Lemma measured_ok f2 str dexp ends0 label v e unit : exists F, forall fuel, (F <= fuel)%nat -> exists s, measured f2 str dexp ends0 fuel label v e unit = Ok s.
Proof.
  unfold measured. destruct (rltb _ e); [|exists 0%nat; intros; eauto]. destruct (sigfig_terminates dexp ends0 v e None) as [F HF]. exists F. intros fuel L. destruct (HF fuel L) as (m & lo & hi & ->). cbn [bind fst snd]. eauto.
Qed.
Lemma element_ok f2 str dexp ends0 value uparams medparams pnum p label v : dget value (key p pnum) = Some v ->
  match uparams with None => True | Some us => (exists e, dget us (key p pnum) = Some e) /\ match medparams with None => True | Some ms => exists m, dget ms (key p pnum) = Some m end end ->
  exists F, forall fuel, (F <= fuel)%nat -> exists s, element_line f2 str dexp ends0 fuel value uparams medparams pnum p label = Ok s.
Proof.
  intros Gv HU. unfold element_line, dget_res. rewrite Gv. cbn [bind]. destruct uparams as [us|]; [|exists 0%nat; eauto]. destruct HU as [[e ->] HM]. destruct medparams as [ms|].
  - destruct HM as [m ->]. cbn [bind]. apply measured_ok.
  - cbn [bind]. apply measured_ok.
Qed.
Lemma mass_written f2 str dexp ends0 num chains nulls dt pnum col q : (1 <= pnum <= num)%nat -> (num <= 10)%nat -> dget chains (key "mpsini" pnum) = Some col -> ~ In (key "mpsini" pnum) nulls ->
  dget dt (key "mpsini" pnum) = Some q -> exists F, forall fuel, (F <= fuel)%nat -> exists s, mass_of_chain f2 str dexp ends0 fuel num chains nulls dt pnum = Ok [s].
Proof.
  intros Hp Hn Gc NN Gd. destruct (derived_plot_total num None nulls chains) as [dp DP]; [intros i Hi; apply ten; lia|]. unfold mass_of_chain. rewrite DP. cbn [bind]. rewrite Gd. destruct q as [[q1 q2] q3].
  destruct (plot_entry _ _ _ _ _ DP "mpsini" pnum col (or_introl eq_refl) Hp Gc NN) as (l & u & col' & _ & _ & _ & I).
  destruct (find _ (snd dp)) as [e|] eqn:FE; [|apply (find_none _ _ FE) in I; cbn in I; rewrite String.eqb_refl in I; discriminate].
  apply find_some in FE as [IE _]. destruct (plot_from _ _ _ _ _ DP e IE) as (p & i & c & l' & _ & _ & _ & _ & _ & _ & TE & _). rewrite TE.
  destruct (measured_ok f2 str dexp ends0 (dtex p l') (q2 * conversion (d_unit e)) (round_sig ((q2 * conversion (d_unit e) - q1 * conversion (d_unit e) + (q3 * conversion (d_unit e) - q2 * conversion (d_unit e))) / 2) 2) (d_unit e)) as [F HF].
  exists F. intros fuel L. destruct (HF fuel L) as [s ->]. cbn [bind]. eauto.
Qed.
Theorem anno_written f2 str dexp ends0 pp letters value uparams medparams derived file num pnum d :
  tex_labels pp letters (dkeys value) = Ok d ->
  (forall p, In p ["per"; "k"; "e"] -> (exists v, dget value (key p pnum) = Some v) /\
     match uparams with None => True | Some us => (exists e, dget us (key p pnum) = Some e) /\ match medparams with None => True | Some ms => exists m, dget ms (key p pnum) = Some m end end) ->
  match derived with
  | None => True
  | Some dt => exists chains nulls col q, file = Some (chains, nulls) /\ (1 <= pnum <= num)%nat /\ (num <= 10)%nat /\ dget chains (key "mpsini" pnum) = Some col /\ ~ In (key "mpsini" pnum) nulls /\ dget dt (key "mpsini" pnum) = Some q
  end -> exists F, forall fuel, (F <= fuel)%nat -> exists lines, annotation f2 str dexp ends0 fuel pp letters value uparams medparams derived file num pnum = Ok lines.
Proof.
  intros T HV HD. destruct (labels_ok pp letters (dkeys value) d (map (fun p => key p pnum) ["per"; "k"; "e"]) T) as (labels & EL & LL). cbn [map length] in LL.
  destruct labels as [|l1 [|l2 [|l3 [|? ?]]]]; try discriminate LL.
  destruct (HV "per" ltac:(cbn; tauto)) as [[v1 G1] U1]. destruct (HV "k" ltac:(cbn; tauto)) as [[v2 G2] U2]. destruct (HV "e" ltac:(cbn; tauto)) as [[v3 G3] U3].
  destruct (element_ok f2 str dexp ends0 value uparams medparams pnum "per" l1 v1 G1 U1) as [F1 K1]. destruct (element_ok f2 str dexp ends0 value uparams medparams pnum "k" l2 v2 G2 U2) as [F2 K2].
  destruct (element_ok f2 str dexp ends0 value uparams medparams pnum "e" l3 v3 G3 U3) as [F3 K3].
  assert (exists F4, forall fuel, (F4 <= fuel)%nat -> exists mass, match derived with
               | None => Ok []
               | Some d => match file with
                           | Some (chains, nulls) => mass_of_chain f2 str dexp ends0 fuel num chains nulls d pnum
                           | None => match uparams with Some u => mass_of_error f2 str dexp ends0 fuel u d pnum | None => Ok [] end
                           end
               end = Ok mass) as [F4 K4].
  { destruct derived as [dt|]; [|exists 0%nat; eauto]. destruct HD as (chains & nulls & col & q & -> & A & B & C & N & G). destruct (mass_written f2 str dexp ends0 num chains nulls dt pnum col q A B C N G) as [F HF].
    exists F. intros fuel L. destruct (HF fuel L) as [s Hs]. eauto. }
  exists (F1 + F2 + F3 + F4)%nat. intros fuel L. destruct (K1 fuel ltac:(lia)) as [s1 E1]. destruct (K2 fuel ltac:(lia)) as [s2 E2]. destruct (K3 fuel ltac:(lia)) as [s3 E3]. destruct (K4 fuel ltac:(lia)) as [mass E4].
  exists ([s1; s2; s3] ++ mass)%list. unfold annotation. rewrite EL. cbn [bind combine map_res fst snd]. rewrite E1. cbn [bind]. rewrite E2. cbn [bind]. rewrite E3. cbn [bind]. match goal with |- bind ?z _ = _ => assert (z = Ok mass) as -> by exact E4 end. reflexivity.
Qed.

(** ** a planet of its own letter *)
Definition xv : dict R := [("per1", 3); ("k1", 5); ("e1", 1 / 10)].
Definition xfile : dict (list R) * list string := ([("mpsini1", [500; 510])], []).
Definition xq : derived_table := [("mpsini1", (quantile (159 / 1000) [500; 510], quantile (1 / 2) [500; 510], quantile (841 / 1000) [500; 510]))].
Definition xdexp (_ : R) : Z := (-2)%Z.
Definition xstr (_ : R) : string := "x".
Lemma xwholes : wholes xdexp (fun _ => false).
Proof. intros e [H|[H _]]; discriminate. Qed.
Lemma anno_ex : exists fuel lines, annotation xstr xstr xdexp (fun _ => false) fuel ["per"; "k"; "e"] (Some [(1%nat, "x")]) xv (Some xv) (Some xv) (Some xq) (Some xfile) 1 1 = Ok lines.
Proof.
  assert (exists d, tex_labels ["per"; "k"; "e"] (Some [(1%nat, "x")]) (dkeys xv) = Ok d) as [d D] by (eexists; reflexivity).
  destruct (anno_written xstr xstr xdexp (fun _ => false) _ _ xv (Some xv) (Some xv) (Some xq) (Some xfile) 1 1 d D) as [F HF].
  - intros p [<-|[<-|[<-|[]]]]; split; eauto; (eexists; reflexivity) || (split; eexists; reflexivity).
  - exists (fst xfile), (snd xfile), [500; 510]. eexists. split; [reflexivity|]. split; [lia|]. split; [lia|]. split; [reflexivity|]. split; [intros []|reflexivity].
  - destruct (HF F (le_n F)) as [lines H]. eauto.
Qed.
Lemma letter_b l : dletter None 1 l -> l = "b".
Proof.
  intros (a & b & E & N). destruct a as [|[i x] a]; cbn in E.
  - injection E. congruence.
  - injection E as E1 _ _. subst i. destruct N. now left.
Qed.
Lemma anno_letters : exists f2 str dexp ends0 fuel letters value uparams medparams d file lines r1 r2,
  annotation f2 str dexp ends0 fuel ["per"; "k"; "e"] (Some letters) value uparams medparams (Some d) (Some file) 1 1 = Ok lines /\
  letters = [(1%nat, "x")] /\ nth_error lines 0 = Some ("$\mathregular{P_{x}}$ = " ++ r1) /\ nth_error lines 3 = Some ("$\mathregular{M_b\sin i}$ = " ++ r2).
Proof.
  destruct anno_ex as (fuel & lines & H). exists xstr, xstr, xdexp, (fun _ => false), fuel, [(1%nat, "x")], xv, (Some xv), (Some xv), xq, xfile, lines.
  destruct (anno_elements _ _ _ _ _ _ _ _ _ _ _ _ _ _ _ H) as (d & D & _ & E). injection D as <-. destruct (E 0%nat "per" eq_refl) as (v & line & u & _ & N & _ & v' & e & _ & _ & LF1 & LF2).
  destruct (anno_mass _ _ _ _ _ _ _ _ _ _ _ _ _ _ _ H (fst xfile) (snd xfile) xq [500; 510] eq_refl eq_refl ltac:(lia) eq_refl ltac:(intros []) eq_refl) as (l & u' & col' & line' & DL & _ & _ & N' & LM1 & LM2).
  apply letter_b in DL. subst l.
  assert (exists r1, line = "$\mathregular{P_{x}}$ = " ++ r1) as [r1 ->]. { destruct (Rlt_le_dec (1 / 10 ^ 15) e) as [L|L]; [destruct (LF1 L) as (m & e' & _ & ->)|rewrite (LF2 L)]; eexists; reflexivity. }
  assert (exists r2, line' = "$\mathregular{M_b\sin i}$ = " ++ r2) as [r2 ->]. { destruct (Rlt_le_dec (1 / 10 ^ 15) (spread col')) as [L|L]; [destruct (LM1 L) as (m & e' & _ & ->)|rewrite (LM2 L)]; eexists; reflexivity. }
  exists r1, r2. auto.
Qed.
