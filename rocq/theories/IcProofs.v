(** Proofs for C62. *)
From Coq Require Import Reals String Ascii Arith Bool Sorted Lia List.
From Verif Require Import Py PyFacts Params ParamsProofs ParamsSpec Basis ModelComp ModelCompSpec ModelCompProofs IcCompare IcSpec.
Import ListNotations.
Open Scope string_scope.

(** ** Counter equality *)
Lemma counter_eq_spec a b : counter_eq a b = true <-> forall x, count_occ string_dec a x = count_occ string_dec b x.
Proof.
  unfold counter_eq. rewrite forallb_forall. split.
  - intros H x. destruct (in_dec string_dec x (a ++ b)%list) as [I|N]; [now apply Nat.eqb_eq, H|].
    rewrite in_app_iff in N. rewrite !(proj1 (count_occ_not_In string_dec _ _)); tauto.
  - intros H x _. now apply Nat.eqb_eq.
Qed.
Lemma counter_eq_nodup a b : NoDup a -> NoDup b -> counter_eq a b = true <-> forall x, In x a <-> In x b.
Proof.
  intros A B. rewrite counter_eq_spec. split.
  - intros H x. rewrite !(count_occ_In string_dec), H. tauto.
  - intros H x. specialize (H x). rewrite !(count_occ_In string_dec) in H.
    pose proof (proj1 (NoDup_count_occ string_dec a) A x). pose proof (proj1 (NoDup_count_occ string_dec b) B x). lia.
Qed.
Lemma counter_eq_refl a : counter_eq a a = true.
Proof. now apply counter_eq_spec. Qed.
Lemma counter_eq_sym a b : counter_eq a b = counter_eq b a.
Proof. apply eq_true_iff_eq. rewrite !counter_eq_spec. split; intros H x; now rewrite H. Qed.

(** ** removal of duplicates *)
Section Dedup.
  Variables (X : Type).
  Definition same (a b : fitted X) : bool := counter_eq (f_labels a) (f_labels b).
  Lemma dedup_app (a b : list (fitted X)) : dedup X (a ++ b) = fold_left (dedup_step X) b (dedup X a).
  Proof. unfold dedup. now rewrite fold_left_app. Qed.
  Lemma step_eq new d : dedup_step X new d = if existsb (same d) new then new else (new ++ [d])%list.
  Proof. reflexivity. Qed.
  Lemma step_seen new d : existsb (same d) new = true -> dedup_step X new d = new.
  Proof. rewrite step_eq. now intros ->. Qed.
  Lemma existsb_grow d new x : existsb (same d) new = true -> existsb (same d) (dedup_step X new x) = true.
  Proof. intro H. rewrite step_eq. destruct (existsb (same x) new); auto. rewrite existsb_app, H. reflexivity. Qed.
  Lemma step_in new d : existsb (same d) (dedup_step X new d) = true.
  Proof.
    rewrite step_eq. destruct (existsb (same d) new) eqn:E; auto. rewrite existsb_app. cbn. unfold same at 2.
    rewrite counter_eq_refl. now rewrite orb_true_r.
  Qed.
  Lemma fold_seen l : forall new d, existsb (same d) new = true -> existsb (same d) (fold_left (dedup_step X) l new) = true.
  Proof. induction l as [|x l IH]; intros new d H; cbn; auto. apply IH, existsb_grow, H. Qed.
  Lemma fold_all l : forall new d, In d l -> existsb (same d) (fold_left (dedup_step X) l new) = true.
  Proof. induction l as [|x l IH]; intros new d H; [destruct H|]. cbn. destruct H as [->|H]; [apply fold_seen, step_in|now apply IH]. Qed.
  Lemma fold_skip l : forall new, (forall d, In d l -> existsb (same d) new = true) -> fold_left (dedup_step X) l new = new.
  Proof. induction l as [|x l IH]; intros new H; cbn; auto. rewrite step_seen by (apply H; now left). apply IH. intros d I. apply H. now right. Qed.
  (** a list that starts with what has been seen *)
  Lemma dedup_again a b : dedup X (a ++ (a ++ b)) = dedup X (a ++ b).
  Proof.
    rewrite (dedup_app a (a ++ b)), fold_left_app, (fold_skip a (dedup X a)), <- dedup_app; auto.
    intros d I. unfold dedup. now apply fold_all.
  Qed.

  Lemma sorted_snoc ix i : StronglySorted lt ix -> (forall j, In j ix -> (j < i)%nat) -> StronglySorted lt (ix ++ [i])%list.
  Proof.
    intros S. induction S as [|j l S IH F]; intro H; cbn; [repeat constructor|]. constructor.
    - apply IH. intros k I. apply H. now right.
    - apply Forall_app. split; auto. constructor; [|constructor]. apply H. now left.
  Qed.
  Lemma dedup_firsts l : firsts (fun a b => same a b = true) l (dedup X l).
  Proof.
    induction l as [|d l IH] using rev_ind.
    - exists []. split; [constructor|]. split; [constructor|]. intro i. split; [intros []|]. intros (x & H & _). now destruct i.
    - rewrite dedup_app. cbn [fold_left]. destruct IH as (ix & S & F & C).
      assert (B : forall j, In j ix -> (j < length l)%nat).
      { intros j I. apply C in I as (x & E & _). apply nth_error_Some. congruence. }
      assert (F' : Forall2 (fun i x => nth_error (l ++ [d])%list i = Some x) ix (dedup X l)).
      { clear - F B. induction F as [|i x ix r E F IH]; constructor; auto.
        - rewrite nth_error_app1; auto. apply B. now left.
        - apply IH. intros j I. apply B. now right. }
      assert (Old : forall i, (i < length l)%nat -> In i ix <-> exists x, nth_error (l ++ [d])%list i = Some x /\ forall j y, (j < i)%nat -> nth_error (l ++ [d])%list j = Some y -> same y x <> true).
      { intros i Hi. rewrite C. split; intros (x & E & N); exists x.
        - split; [now rewrite nth_error_app1|]. intros j y Hj Ey. apply (N j y Hj). rewrite nth_error_app1 in Ey; auto. lia.
        - split; [now rewrite nth_error_app1 in E|]. intros j y Hj Ey. apply (N j y Hj). rewrite nth_error_app1; auto. lia. }
      assert (Seen : existsb (same d) (dedup X l) = true <-> exists j y, (j < length l)%nat /\ nth_error l j = Some y /\ same y d = true).
      { split.
        - intro H. apply existsb_exists in H as (y & I & E). apply In_nth_error in I as (p & Ep).
          assert (K : exists j, nth_error ix p = Some j /\ nth_error l j = Some y).
          { clear - F Ep. revert p Ep. induction F as [|i x ix r E F IH]; intros [|p] Ep; cbn in *; try discriminate; eauto. injection Ep as ->. eauto. }
          destruct K as (j & _ & Ej). exists j, y. split; [apply nth_error_Some; congruence|]. split; auto. unfold same. now rewrite counter_eq_sym.
        - intros (j & y & Hj & Ey & E). pose proof (fold_all l [] y (nth_error_In _ _ Ey)) as H. fold (dedup X l) in H.
          apply existsb_exists in H as (z & I & Ez). apply existsb_exists. exists z. split; auto. unfold same in *.
          apply counter_eq_spec. intro x. rewrite counter_eq_spec in E, Ez. now rewrite <- E, Ez. }
      rewrite step_eq. destruct (existsb (same d) (dedup X l)) eqn:E.
      + exists ix. split; auto. split; auto. intro i. destruct (lt_dec i (length l)) as [Hi|Hi]; [now apply Old|]. split.
        * intro I. now apply B in I.
        * intros (x & Ex & N). exfalso. assert (i = length l) as ->.
          { assert (i < length (l ++ [d]))%nat by (apply nth_error_Some; congruence). rewrite app_length in *. cbn in *. lia. }
          rewrite nth_error_app2, Nat.sub_diag in Ex by lia. injection Ex as <-.
          destruct (proj1 Seen eq_refl) as (j & y & Hj & Ey & K). apply (N j y Hj); auto. now rewrite nth_error_app1.
      + exists (ix ++ [length l])%list. split; [now apply sorted_snoc|]. split.
        * apply Forall2_app; auto. constructor; [|constructor]. rewrite nth_error_app2, Nat.sub_diag by lia. reflexivity.
        * intro i. rewrite in_app_iff. destruct (lt_dec i (length l)) as [Hi|Hi].
          { rewrite <- (Old i Hi). cbn. intuition lia. }
          split.
          { intros [I|[<-|[]]]; [now apply B in I|]. exists d. split; [rewrite nth_error_app2, Nat.sub_diag by lia; reflexivity|].
            intros j y Hj Ey K. rewrite nth_error_app1 in Ey by lia. assert (false = true); [|discriminate]. apply Seen. eauto. }
          { intros (x & Ex & N). right. left. assert (i < length (l ++ [d]))%nat by (apply nth_error_Some; congruence). rewrite app_length in *. cbn in *. lia. }
  Qed.
End Dedup.

(** ** model_comp only appends, and does not look at what is there *)
Section Append.
  Variables (stats : Type) (env : menv) (fit : pst -> pst * res stats) (P : stats -> Prop).
  Hypothesis PF : forall s x, snd (fit s) = Ok x -> P x.
  Definition AP (f : list stats -> out stats) : Prop := exists p E r, Forall P E /\ forall l, f l = (p, (l ++ E)%list, r).
  Definition AC (f : list stats -> list stats * res unit) : Prop := exists E r, Forall P E /\ forall l, f l = ((l ++ E)%list, r).
  Lemma AP_const p r : AP (fun l => (p, l, r)).
  Proof. exists p, [], r. split; [constructor|]. intro l. now rewrite app_nil_r. Qed.
  Lemma AC_const r : AC (fun l => (l, r)).
  Proof. exists [], r. split; [constructor|]. intro l. now rewrite app_nil_r. Qed.
  Lemma AC_then p f g : AC f -> (AP g) ->
    AP (fun l => let '(l1, r1) := f l in match r1 with Err e => (p, l1, Err e) | Ok _ => g l1 end).
  Proof.
    intros (E & r & F & H) (p' & E' & r' & F' & H'). destruct r as [u|e].
    - exists p', (E ++ E')%list, r'. split; [apply Forall_app; auto|]. intro l. rewrite H, H', app_assoc. reflexivity.
    - exists p, E, (Err e). split; auto. intro l. now rewrite H.
  Qed.
  Lemma AC_end p f : AC f -> AP (fun l => let '(l2, r2) := f l in (p, l2, r2)).
  Proof. intros (E & r & F & H). exists p, E, r. split; auto. intro l. now rewrite H. Qed.
  Lemma base_app post : AP (mc_base stats fit post).
  Proof.
    unfold mc_base. pose proof (PF post) as H. destruct (fit post) as [p' [x|e]].
    - exists p', [x], (Ok tt). split; [constructor; [now apply H|constructor]|]. reflexivity.
    - apply AP_const.
  Qed.
  Section R.
  Variables (rec : list string -> pst -> list stats -> out stats).
  Hypothesis HR : forall ps c, AP (rec ps c).
  Lemma copy_app ps c : AC (on_copy stats rec ps c).
  Proof. destruct (HR ps c) as (p & E & r & F & H). exists E, r. split; auto. intro l. unfold on_copy. now rewrite H. Qed.
  Lemma gp_app ps post : AP (mc_gp stats env rec ps post).
  Proof.
    unfold mc_gp. destruct (existsb _ _); [|apply HR]. destruct (e_hnames env); [|apply AP_const]. destruct (for_each l (gp_step env) post); [|apply AP_const].
    apply (AC_then post); [apply copy_app|apply HR].
  Qed.
  Lemma jit_app ps post : AP (mc_jit stats env rec ps post).
  Proof.
    unfold mc_jit. destruct (for_each _ _ _) as [[c b]|]; [|apply AP_const].
    apply (AC_then post (fun l => if b then on_copy stats rec ps (relist c) l else (l, Ok tt)) (fun l1 => let '(l2, r2) := on_copy stats rec ps (relist post) l1 in (post, l2, r2))).
    - destruct b; [apply copy_app|apply AC_const].
    - apply AC_end, copy_app.
  Qed.
  Lemma trend_app ps i k : exists i' E r, Forall P E /\ forall l, trend_step stats env rec ps (i, l) k = ((i', (l ++ E)%list), r).
  Proof.
    unfold trend_step. assert (Z : forall r : res unit, exists i' E r', Forall P E /\ forall l : list stats, (i, l, r) = ((i', (l ++ E)%list), r')).
    { intro r. exists i, [], r. split; [constructor|]. intro l. now rewrite app_nil_r. }
    destruct (flag env i k) as [[|]|]; auto. destruct (put_val env (Fin 0) i k) as [i1|]; auto.
    destruct (copy_app ps (relist i1)) as (E & r & F & H). destruct r as [u|e].
    - destruct (put_fixed env i1 k) as [i2|e].
      + exists i2, E, (Ok tt). split; auto. intro l. now rewrite H.
      + exists i1, E, (Err e). split; auto. intro l. now rewrite H.
    - exists i1, E, (Err e). split; auto. intro l. now rewrite H.
  Qed.
  Lemma trends_app ps post : AP (mc_trend stats env rec ps post).
  Proof.
    unfold mc_trend. destruct (trend_app ps post "curv") as (i1 & E1 & r1 & F1 & H1). destruct r1 as [u|e].
    2:{ exists post, E1, (Err e). split; auto. intro l. now rewrite H1. }
    destruct (trend_app ps i1 "dvdt") as (i2 & E2 & r2 & F2 & H2). destruct r2 as [u'|e].
    2:{ exists post, (E1 ++ E2)%list, (Err e). split; [apply Forall_app; auto|]. intro l. now rewrite H1, H2, app_assoc. }
    destruct (copy_app ps (relist i2)) as (E3 & r3 & F3 & H3).
    exists post, (E1 ++ (E2 ++ E3))%list, r3. split; [repeat (apply Forall_app; split); auto|]. intro l. now rewrite H1, H2, H3, !app_assoc.
  Qed.
  Lemma loop_app change fin ps post sets : AC (sets_loop stats env rec change fin ps post sets).
  Proof.
    induction sets as [|x sets IH]; cbn [sets_loop]; [apply AC_const|].
    destruct (all_any env post x) as [[|]|]; [|exact IH|apply AC_const]. destruct (do c <- change_all change x post; fin c) as [c|]; [|apply AC_const].
    destruct (copy_app ps c) as (E & r & F & H), IH as (E' & r' & F' & H'). destruct r as [u|e].
    - exists (E ++ E')%list, r'. split; [apply Forall_app; auto|]. intro l. now rewrite H, H', app_assoc.
    - exists E, (Err e). split; auto. intro l. now rewrite H.
  Qed.
  Lemma sets_app names change fin ps post : AP (mc_sets stats env rec names change fin ps post).
  Proof.
    unfold mc_sets. destruct names as [names|]; [|apply AP_const].
    apply (AC_then post (sets_loop stats env rec change fin ps post (plparams names (e_num env))) (fun l1 => let '(l2, r2) := on_copy stats rec ps (relist post) l1 in (post, l2, r2))).
    - apply loop_app.
    - apply AC_end, copy_app.
  Qed.
  End R.
  Lemma mc_app fuel : forall ps post, AP (mc stats env fit fuel ps post).
  Proof.
    induction fuel as [|n IH]; intros ps post; cbn [mc].
    - destruct (negb _); [apply AP_const|]. destruct ps; [apply base_app|apply AP_const].
    - destruct (negb _); [apply AP_const|]. destruct ps; [apply base_app|].
      set (q := s :: ps). destruct (str_in "gp" q); [now apply gp_app|]. destruct (str_in "jit" q); [now apply jit_app|].
      destruct (str_in "trend" q); [now apply trends_app|]. destruct (str_in "nplanets" q); [now apply sets_app|]. destruct (str_in "e" q); [now apply sets_app|apply AP_const].
  Qed.
  Lemma comp_app ps post : AP (model_comp stats env fit ps post).
  Proof. apply mc_app. Qed.
End Append.
