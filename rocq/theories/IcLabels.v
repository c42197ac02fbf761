(** The labels of a model show its free parameters (C62). *)
From Coq Require Import Reals String Ascii Arith Bool Sorted Lia List.
From Verif Require Import Py PyFacts Params ParamsProofs ParamsSpec Basis ModelComp ModelCompSpec ModelCompProofs IcCompare IcSpec IcProofs.
Import ListNotations.
Open Scope string_scope.

Lemma prefix_split a : forall b, String.prefix a b = true -> exists r, b = a ++ r.
Proof.
  induction a as [|c a IH]; intros b H; [now exists b|]. destruct b as [|d b]; [discriminate|]. cbn in H.
  destruct (ascii_dec c d) as [->|]; [|discriminate]. destruct (IH b H) as (r & ->). now exists r.
Qed.
Lemma sdrop_app a b : sdrop (String.length a) (a ++ b) = b.
Proof. induction a; cbn; auto. Qed.
Lemma app_tail a : forall b t, a ++ t = b ++ t -> a = b.
Proof.
  intros b t H. assert (E : String.length a = String.length b).
  { assert (K : String.length (a ++ t) = String.length (b ++ t)) by now rewrite H.
    assert (A : forall x y, String.length (x ++ y) = (String.length x + String.length y)%nat) by (induction x; cbn; intros; auto). rewrite !A in K. lia. }
  revert b E H. induction a as [|c a IH]; intros [|d b] E H; cbn in *; try discriminate; auto. injection H as -> H. f_equal. apply IH; auto.
Qed.
Lemma lab_k_inj x y : lab_k x = lab_k y -> x = y.
Proof. unfold lab_k. cbn. intro H. injection H as H. exact (app_tail x y "}$" H). Qed.
Lemma lab_e_inj x y : lab_e x = lab_e y -> x = y.
Proof. unfold lab_e. cbn. intro H. injection H as H. exact (app_tail x y "}$" H). Qed.
Lemma lab_gp_inj x y : lab_gp x = lab_gp y -> no_underscore x = no_underscore y.
Proof. unfold lab_gp. cbn. intro H. injection H as H. exact (app_tail _ _ "}$" H). Qed.

Section L.
  Variables (env : menv) (letter : string -> res string) (kp ep : string) (L : nat -> string) (n : nat).
  Hypothesis NO : names_ok env letter kp ep L n.

  Lemma basis_cases : (kp = "k" \/ kp = "logk") /\ (ep = "e" \/ ep = "secosw" \/ ep = "ecosw" \/ ep = "se").
  Proof.
    destruct (no_basis _ _ _ _ _ _ NO) as (eps & cps & E & C). unfold get_eparams, get_circparams, params_of in *.
    destruct (negb _); [discriminate|]. unfold dget_res in *.
    cbn [ECCENTRICITY_PARAMS_DICT CIRCULAR_PARAMS_DICT dget] in E, C.
    repeat (match type of E with context [if String.eqb ?a ?c then _ else _] => destruct (String.eqb_spec a c) as [Q|] end;
      [cbn in E, C; rewrite ?Q in C; cbn in C;
       match type of E with Ok ?x = Ok ?y => assert (x = y) as E' by congruence end;
       match type of C with Ok [?a; ?b; ?c] = Ok ?y => assert (([a; b] ++ [c])%list = y) as C' by (cbn; congruence) end;
       apply app_inj_tail in C' as (_ & <-); injection E' as <- _; auto|]). discriminate.
  Qed.

  Definition labf (p : string) : option string :=
    if String.prefix kp p then match letter (sdrop (String.length kp) p) with Ok x => Some (lab_k x) | Err _ => None end
    else if String.prefix ep p then match letter (sdrop (String.length ep) p) with Ok x => Some (lab_e x) | Err _ => None end
    else if String.eqb p "dvdt" then Some "$\dot{\gamma}$"
    else if String.eqb p "curv" then Some "$\ddot{\gamma}$"
    else if String.prefix "jit" p then Some "{$\sigma$}"
    else if String.prefix "gp_amp" p then Some (lab_gp (sdrop 6 p))
    else None.

  Lemma flag_ok s p : length (m_rows s) = n -> In p (e_names env) -> exists f, flag env s p = Ok f /\ (f = true <-> free_key env s p).
  Proof.
    intros Ln I. destruct (no_idx _ _ _ _ _ _ NO p I) as (i & Ei & Hi). rewrite <- Ln in Hi. exact (flag_spec env s p i Ei Hi).
  Qed.

  Lemma step_spec s st p : length (m_rows s) = n -> In p (e_names env) -> exists f, flag env s p = Ok f /\ (f = true <-> free_key env s p) /\
    label_step env letter kp ep s st p =
      Ok (if f then match labf p with
                    | None => st
                    | Some x => if String.prefix "jit" p then (if snd st then st else ((fst st ++ [x])%list, true)) else ((fst st ++ [x])%list, snd st)
                    end
          else st).
  Proof.
    intros Ln I. destruct (flag_ok s p Ln I) as (f & E & H). exists f. split; auto. split; auto. unfold label_step, labf, startswith. rewrite !E.
    pose proof (no_k _ _ _ _ _ _ NO p I) as HK. pose proof (no_e _ _ _ _ _ _ NO p I) as HE. destruct basis_cases as (BK & BE).
    destruct (String.prefix kp p) eqn:PK.
    { destruct (HK eq_refl) as (m & -> & Hm). clear HK. unfold key. rewrite sdrop_app, (no_letter _ _ _ _ _ _ NO m Hm).
      assert (String.prefix ep (kp ++ str_nat m) = false) as -> by (destruct BK as [->| ->], BE as [->|[->|[->| ->]]]; reflexivity).
      assert (String.eqb (kp ++ str_nat m) "dvdt" = false) as -> by (destruct BK as [->| ->]; reflexivity).
      assert (String.eqb (kp ++ str_nat m) "curv" = false) as -> by (destruct BK as [->| ->]; reflexivity).
      assert (String.prefix "jit" (kp ++ str_nat m) = false) as -> by (destruct BK as [->| ->]; reflexivity).
      assert (String.prefix "gp_amp" (kp ++ str_nat m) = false) as -> by (destruct BK as [->| ->]; reflexivity).
      destruct f; reflexivity. }
    destruct (String.prefix ep p) eqn:PE.
    { destruct (HE eq_refl) as (m & -> & Hm). clear HE HK. unfold key. rewrite sdrop_app, (no_letter _ _ _ _ _ _ NO m Hm).
      assert (String.eqb (ep ++ str_nat m) "dvdt" = false) as -> by (destruct BE as [->|[->|[->| ->]]]; reflexivity).
      assert (String.eqb (ep ++ str_nat m) "curv" = false) as -> by (destruct BE as [->|[->|[->| ->]]]; reflexivity).
      assert (String.prefix "jit" (ep ++ str_nat m) = false) as -> by (destruct BE as [->|[->|[->| ->]]]; reflexivity).
      assert (String.prefix "gp_amp" (ep ++ str_nat m) = false) as -> by (destruct BE as [->|[->|[->| ->]]]; reflexivity).
      destruct f; reflexivity. }
    destruct (String.eqb_spec p "dvdt") as [->|N1]; [destruct f; reflexivity|].
    destruct (String.eqb_spec p "curv") as [->|N2]; [destruct f; reflexivity|].
    destruct (String.prefix "jit" p) eqn:PJ.
    { apply prefix_split in PJ as (r & ->). destruct f; cbn; [|reflexivity]. now destruct (snd st). }
    destruct (String.prefix "gp_amp" p), f; reflexivity.
  Qed.

  (** different names have different labels, except for jitter terms *)
  Lemma labf_inj p p' x : In p (e_names env) -> In p' (e_names env) -> labf p = Some x -> labf p' = Some x ->
    p = p' \/ String.prefix "jit" p = true /\ String.prefix "jit" p' = true.
  Proof.
    intros I I'. unfold labf.
    pose proof (no_k _ _ _ _ _ _ NO p I) as HK. pose proof (no_e _ _ _ _ _ _ NO p I) as HE.
    pose proof (no_k _ _ _ _ _ _ NO p' I') as HK'. pose proof (no_e _ _ _ _ _ _ NO p' I') as HE'.
    destruct (String.prefix kp p).
    { destruct (HK eq_refl) as (m & -> & Hm). unfold key. rewrite sdrop_app, (no_letter _ _ _ _ _ _ NO m Hm). intro E. injection E as <-.
      destruct (String.prefix kp p').
      { destruct (HK' eq_refl) as (m' & -> & Hm'). unfold key. rewrite sdrop_app, (no_letter _ _ _ _ _ _ NO m' Hm'). intro E. injection E as E.
        apply (app_tail (L m') (L m) "}$") in E. apply (no_inj _ _ _ _ _ _ NO) in E; auto. left. now rewrite E. }
      destruct (String.prefix ep p').
      { destruct (HE' eq_refl) as (m' & -> & Hm'). unfold key. rewrite sdrop_app, (no_letter _ _ _ _ _ _ NO m' Hm'). intro E. discriminate. }
      destruct (String.eqb p' "dvdt"); [discriminate|]. destruct (String.eqb p' "curv"); [discriminate|]. destruct (String.prefix "jit" p'); [discriminate|].
      destruct (String.prefix "gp_amp" p'); discriminate. }
    destruct (String.prefix ep p).
    { destruct (HE eq_refl) as (m & -> & Hm). unfold key. rewrite sdrop_app, (no_letter _ _ _ _ _ _ NO m Hm). intro E. injection E as <-.
      destruct (String.prefix kp p').
      { destruct (HK' eq_refl) as (m' & -> & Hm'). unfold key. rewrite sdrop_app, (no_letter _ _ _ _ _ _ NO m' Hm'). intro E. discriminate. }
      destruct (String.prefix ep p').
      { destruct (HE' eq_refl) as (m' & -> & Hm'). unfold key. rewrite sdrop_app, (no_letter _ _ _ _ _ _ NO m' Hm'). intro E. injection E as E.
        apply (app_tail (L m') (L m) "}$") in E. apply (no_inj _ _ _ _ _ _ NO) in E; auto. left. now rewrite E. }
      destruct (String.eqb p' "dvdt"); [discriminate|]. destruct (String.eqb p' "curv"); [discriminate|]. destruct (String.prefix "jit" p'); [discriminate|].
      destruct (String.prefix "gp_amp" p'); discriminate. }
    destruct (String.prefix kp p').
    { destruct (HK' eq_refl) as (m' & -> & Hm'). unfold key. rewrite sdrop_app, (no_letter _ _ _ _ _ _ NO m' Hm'). intros E E'. injection E' as <-.
      destruct (String.eqb p "dvdt"); [discriminate|]. destruct (String.eqb p "curv"); [discriminate|]. destruct (String.prefix "jit" p); [discriminate|].
      destruct (String.prefix "gp_amp" p); discriminate. }
    destruct (String.prefix ep p').
    { destruct (HE' eq_refl) as (m' & -> & Hm'). unfold key. rewrite sdrop_app, (no_letter _ _ _ _ _ _ NO m' Hm'). intros E E'. injection E' as <-.
      destruct (String.eqb p "dvdt"); [discriminate|]. destruct (String.eqb p "curv"); [discriminate|]. destruct (String.prefix "jit" p); [discriminate|].
      destruct (String.prefix "gp_amp" p); discriminate. }
    destruct (String.eqb_spec p "dvdt") as [->|N1].
    { intro E. injection E as <-. destruct (String.eqb_spec p' "dvdt") as [->|]; [auto|]. destruct (String.eqb p' "curv"); [discriminate|]. destruct (String.prefix "jit" p'); [discriminate|].
      destruct (String.prefix "gp_amp" p'); discriminate. }
    destruct (String.eqb_spec p "curv") as [->|N2].
    { intro E. injection E as <-. destruct (String.eqb p' "dvdt"); [discriminate|]. destruct (String.eqb_spec p' "curv") as [->|]; [auto|]. destruct (String.prefix "jit" p'); [discriminate|].
      destruct (String.prefix "gp_amp" p'); discriminate. }
    destruct (String.prefix "jit" p) eqn:J.
    { intro E. injection E as <-. destruct (String.eqb p' "dvdt"); [discriminate|]. destruct (String.eqb p' "curv"); [discriminate|]. destruct (String.prefix "jit" p'); [auto|].
      destruct (String.prefix "gp_amp" p'); discriminate. }
    destruct (String.prefix "gp_amp" p) eqn:G; [|discriminate]. intro E. injection E as <-.
    destruct (String.eqb p' "dvdt"); [discriminate|]. destruct (String.eqb p' "curv"); [discriminate|]. destruct (String.prefix "jit" p'); [discriminate|].
    destruct (String.prefix "gp_amp" p') eqn:G'; [|discriminate]. intro E. injection E as E. left. apply app_tail with (t := "}$") in E.
    symmetry. now apply (no_gp _ _ _ _ _ _ NO).
  Qed.
  Lemma labf_some p : In p (e_names env) -> (exists x, labf p = Some x) <-> labelled kp ep p \/ String.prefix "jit" p = true.
  Proof.
    intro I. unfold labf, labelled. pose proof (no_k _ _ _ _ _ _ NO p I) as HK. pose proof (no_e _ _ _ _ _ _ NO p I) as HE.
    destruct (String.prefix kp p).
    { destruct (HK eq_refl) as (m & -> & Hm). unfold key. rewrite sdrop_app, (no_letter _ _ _ _ _ _ NO m Hm). split; eauto. }
    destruct (String.prefix ep p).
    { destruct (HE eq_refl) as (m & -> & Hm). unfold key. rewrite sdrop_app, (no_letter _ _ _ _ _ _ NO m Hm). split; eauto. }
    destruct (String.eqb_spec p "dvdt"); [split; eauto 6|]. destruct (String.eqb_spec p "curv"); [split; eauto 7|].
    destruct (String.prefix "jit" p); [split; eauto|]. destruct (String.prefix "gp_amp" p); [split; eauto 7|]. split; [intros (x & H); discriminate|]. intuition discriminate.
  Qed.

  Lemma loop_spec s : length (m_rows s) = n -> forall todo done st, (done ++ todo)%list = e_names env ->
    NoDup (fst st) -> (forall x, In x (fst st) <-> exists p, In p done /\ free_key env s p /\ labf p = Some x) ->
    (snd st = true <-> exists p, In p done /\ free_key env s p /\ String.prefix "jit" p = true /\ labf p <> None) ->
    exists st', for_each todo (label_step env letter kp ep s) st = Ok st' /\ NoDup (fst st') /\
      (forall x, In x (fst st') <-> exists p, In p (e_names env) /\ free_key env s p /\ labf p = Some x).
  Proof.
    intro Ln. induction todo as [|p todo IH]; intros dn st Hd N C J.
    - rewrite app_nil_r in Hd. subst dn. exists st. cbn. auto.
    - assert (I : In p (e_names env)) by (rewrite <- Hd; apply in_app_iff; right; now left).
      assert (ID : forall q, In q dn -> In q (e_names env)) by (intros q H; rewrite <- Hd; apply in_app_iff; auto).
      assert (NP : ~ In p dn). { pose proof (no_nodup _ _ _ _ _ _ NO) as ND. rewrite <- Hd in ND. apply NoDup_remove_2 in ND. rewrite in_app_iff in ND. tauto. }
      destruct (step_spec s st p Ln I) as (f & _ & Hf & E). cbn [for_each]. rewrite E. cbn [bind].
      assert (Hd' : ((dn ++ [p]) ++ todo)%list = e_names env) by (now rewrite <- app_assoc).
      apply (IH (dn ++ [p])%list _ Hd'); clear IH.
      + destruct f; auto. destruct (labf p) as [x|] eqn:Ex; auto. destruct (String.prefix "jit" p) eqn:PJ.
        * destruct (snd st) eqn:Es; auto. cbn [fst]. apply nodup_app; auto; [repeat constructor; auto|]. intros y Hy [<-|[]]. apply C in Hy as (q & Hq & Fq & Lq).
          destruct (labf_inj q p x (ID q Hq) I Lq Ex) as [->|(Jq & _)]; [auto|]. assert (false = true); [|discriminate]. apply J. exists q. repeat split; auto. congruence.
        * cbn [fst]. apply nodup_app; auto; [repeat constructor; auto|]. intros y Hy [<-|[]]. apply C in Hy as (q & Hq & Fq & Lq).
          destruct (labf_inj q p x (ID q Hq) I Lq Ex) as [->|(_ & Jq)]; [auto|congruence].
      + intro x. assert (Split : (exists q, In q (dn ++ [p])%list /\ free_key env s q /\ labf q = Some x) <-> In x (fst st) \/ (free_key env s p /\ labf p = Some x)).
        { rewrite C. split.
          - intros (q & Hq & R). apply in_app_iff in Hq as [Hq|[<-|[]]]; [left; eauto|auto].
          - intros [(q & Hq & R)|R]; [exists q|exists p]; (split; [apply in_app_iff; cbn; auto|auto]). }
        rewrite Split, <- Hf. destruct f; [|intuition discriminate]. destruct (labf p) as [y|] eqn:Ey; [|intuition discriminate].
        destruct (String.prefix "jit" p) eqn:PJ; [destruct (snd st) eqn:Es|].
        * split; [auto|]. intros [H|(_ & H)]; auto. injection H as <-. destruct (proj1 J eq_refl) as (q & Hq & Fq & Jq & _). apply C. exists q. repeat split; auto.
          destruct basis_cases as (BK & BE). clear - Jq Ey PJ BK BE. apply prefix_split in PJ as (r & ->). apply prefix_split in Jq as (r' & ->). unfold labf in *.
          assert (P1 : forall z, String.prefix kp ("jit" ++ z) = false) by (intro z; destruct BK as [->| ->]; reflexivity).
          assert (P2 : forall z, String.prefix ep ("jit" ++ z) = false) by (intro z; destruct BE as [->|[->|[->| ->]]]; reflexivity).
          rewrite P1, P2 in *. cbn in Ey |- *. destruct r, r'; exact Ey.
        * cbn [fst]. rewrite in_app_iff. cbn. split; [intros [H|[<-|[]]]; auto|]. intros [H|(_ & H)]; auto. injection H as <-. auto.
        * cbn [fst]. rewrite in_app_iff. cbn. split; [intros [H|[<-|[]]]; auto|]. intros [H|(_ & H)]; auto. injection H as <-. auto.
      + assert (Split : (exists q, In q (dn ++ [p])%list /\ free_key env s q /\ String.prefix "jit" q = true /\ labf q <> None) <-> snd st = true \/ (free_key env s p /\ String.prefix "jit" p = true /\ labf p <> None)).
        { rewrite J. split.
          - intros (q & Hq & R). apply in_app_iff in Hq as [Hq|[<-|[]]]; [left; eauto|auto].
          - intros [(q & Hq & R)|R]; [exists q|exists p]; (split; [apply in_app_iff; cbn; auto|auto]). }
        rewrite Split, <- Hf. destruct f; [|intuition discriminate]. destruct (labf p) as [y|]; [|intuition].
        destruct (String.prefix "jit" p); [destruct (snd st) eqn:Es|]; cbn [snd]; intuition (try discriminate).
  Qed.
  Lemma labels_ok s : length (m_rows s) = n -> exists l, labels env letter s = Ok l /\ NoDup l /\
    (forall x, In x l <-> exists p, In p (e_names env) /\ free_key env s p /\ labf p = Some x).
  Proof.
    intro Ln. unfold labels. destruct (no_basis _ _ _ _ _ _ NO) as (eps & cps & E & C). rewrite E, C. cbn [bind hd]. rewrite last_last.
    destruct (loop_spec s Ln (e_names env) [] ([], false) eq_refl) as (st & E' & N & H); [constructor|..].
    - intro x. split; [intros []|]. intros (p & [] & _).
    - split; [discriminate|]. intros (p & [] & _).
    - rewrite E'. cbn [bind]. eauto.
  Qed.
  Lemma labels_same s1 s2 l1 l2 : length (m_rows s1) = n -> length (m_rows s2) = n -> labels env letter s1 = Ok l1 -> labels env letter s2 = Ok l2 ->
    counter_eq l1 l2 = true <-> same_free env kp ep s1 s2.
  Proof.
    intros L1 L2 E1 E2. destruct (labels_ok s1 L1) as (l & E & N1 & C1). rewrite E1 in E. injection E as <-.
    destruct (labels_ok s2 L2) as (l & E & N2 & C2). rewrite E2 in E. injection E as <-. rewrite (counter_eq_nodup l1 l2 N1 N2).
    assert (Jit : forall p, String.prefix "jit" p = true -> ~ labelled kp ep p /\ labf p = Some "{$\sigma$}").
    { intros p PJ. destruct basis_cases as (BK & BE). apply prefix_split in PJ as (r & ->). unfold labelled, labf.
      assert (String.prefix kp ("jit" ++ r) = false) as -> by (destruct BK as [->| ->]; reflexivity).
      assert (String.prefix ep ("jit" ++ r) = false) as -> by (destruct BE as [->|[->|[->| ->]]]; reflexivity).
      split; [|destruct r; reflexivity]. cbn. intros [H|[H|[H|[H|H]]]]; discriminate. }
    assert (Half : forall sa sb la lb, (forall x, In x la <-> exists p, In p (e_names env) /\ free_key env sa p /\ labf p = Some x) ->
      (forall x, In x lb <-> exists p, In p (e_names env) /\ free_key env sb p /\ labf p = Some x) -> (forall x, In x la -> In x lb) ->
      (forall k, In k (e_names env) -> labelled kp ep k -> free_key env sa k -> free_key env sb k) /\ (jitter_free env sa -> jitter_free env sb)).
    { intros sa sb la lb Ca Cb H. split.
      - intros k I Lk F. destruct (proj2 (labf_some k I) (or_introl Lk)) as (x & Ex).
        assert (In x lb) as Hx by (apply H, Ca; eauto). apply Cb in Hx as (q & Iq & Fq & Eq). destruct (labf_inj k q x I Iq Ex Eq) as [->|(Jk & _)]; auto.
        exfalso. now apply (Jit k Jk).
      - intros (k & I & Jk & F). assert (In "{$\sigma$}" lb) as Hx by (apply H, Ca; exists k; repeat split; auto; now apply Jit).
        apply Cb in Hx as (q & Iq & Fq & Eq). destruct (labf_inj k q "{$\sigma$}" I Iq (proj2 (Jit k Jk)) Eq) as [->|(_ & Jq)]; [exists q|exists q]; auto. }
    assert (Back : forall sa sb la lb, (forall x, In x la <-> exists p, In p (e_names env) /\ free_key env sa p /\ labf p = Some x) ->
      (forall x, In x lb <-> exists p, In p (e_names env) /\ free_key env sb p /\ labf p = Some x) ->
      (forall k, In k (e_names env) -> labelled kp ep k -> free_key env sa k -> free_key env sb k) -> (jitter_free env sa -> jitter_free env sb) ->
      (forall x, In x la -> In x lb)).
    { intros sa sb la lb Ca Cb H1 H2 x Hx. apply Ca in Hx as (p & I & F & E). apply Cb.
      destruct (proj1 (labf_some p I) (ex_intro _ x E)) as [Lp|Jp]; [exists p; auto|].
      destruct H2 as (q & Iq & Jq & Fq); [exists p; auto|]. exists q. repeat split; auto. rewrite (proj2 (Jit q Jq)). rewrite (proj2 (Jit p Jp)) in E. exact E. }
    unfold same_free. split.
    - intro H. destruct (Half s1 s2 l1 l2 C1 C2) as (A1 & A2); [intros x; apply H|]. destruct (Half s2 s1 l2 l1 C2 C1) as (B1 & B2); [intros x; apply H|].
      split; [intros k I Lk; split; auto|split; auto].
    - intros (H1 & H2) x. split; [apply (Back s1 s2)|apply (Back s2 s1)]; auto; try (intros k I Lk; apply H1; auto); apply H2.
  Qed.
End L.
