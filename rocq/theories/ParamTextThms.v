(** Proofs of C94. *)
From Coq Require Import Reals ZArith String Ascii Bool Lra List.
From Verif Require Import Py PyFloat Params Likelihood LikeMore Gp PriorTextSpec PriorTextThms PriorTextProofs ParamText ParamTextSpec.
Import ListNotations.
Open Scope string_scope.

Lemma ok_inv {A} (a b : A) : Ok a = Ok b -> a = b.
Proof. congruence. Qed.
Lemma chr_inv c a b : String c a = String c b -> a = b.
Proof. congruence. Qed.
Lemma append_length' : forall a b, String.length (a ++ b) = (String.length a + String.length b)%nat.
Proof. induction a as [|c a IH]; intro b; cbn; [reflexivity|now rewrite IH]. Qed.
Lemma dot_inv : forall a b, a ++ "." = b ++ "." -> a = b.
Proof.
  induction a as [|c a IH]; intros [|d b] E; cbn in E; try reflexivity.
  - apply (f_equal String.length) in E. cbn in E. rewrite append_length' in E. cbn in E. rewrite PeanoNat.Nat.add_comm in E. discriminate.
  - apply (f_equal String.length) in E. cbn in E. rewrite append_length' in E. cbn in E. rewrite PeanoNat.Nat.add_comm in E. discriminate.
  - injection E as -> E. f_equal. now apply IH.
Qed.

Section Told.
  Variables (show : ext -> string) (F : ext -> Prop).
  Hypothesis TA : shown_apart show F.
  Lemma opt_free x : among F x -> free "," (show_opt show x).
  Proof. destruct x as [v|]; cbn [among show_opt]; intro H; [apply (proj1 (proj1 TA) _ H)|]. intro K. cbn in K. decompose [or] K; try discriminate; contradiction. Qed.
  Lemma opt_inj x y : among F x -> among F y -> show_opt show x = show_opt show y -> x = y.
  Proof.
    destruct x as [v|], y as [w|]; cbn [among show_opt]; intros A B E; auto.
    - apply (proj2 (proj1 TA)) in E; auto. now injection E as ->.
    - now apply (proj2 TA) in A.
    - symmetry in E. now apply (proj2 TA) in B.
  Qed.
  Lemma cut_opt x y r s : among F x -> among F y -> show_opt show x ++ ", " ++ r = show_opt show y ++ ", " ++ s -> x = y /\ r = s.
  Proof. intros A B E. change (", " ++ r) with (String "," (" " ++ r)) in E. change (", " ++ s) with (String "," (" " ++ s)) in E. apply cut in E as [E1 E2]; try (now apply opt_free). apply append_inv in E2. split; [now apply opt_inj|exact E2]. Qed.
  Lemma vary_free v : free "," (vary_text v).
  Proof. intro K. destruct v as [[|]|]; cbn in K; decompose [or] K; try discriminate; contradiction. Qed.
  Lemma vary_inj v w : vary_text v = vary_text w -> v = w.
  Proof. destruct v as [[|]|], w as [[|]|]; cbn; congruence. Qed.

  Lemma params_told p q : param_among F p -> param_among F q -> (param_text show p = param_text show q <-> param_equals p q = true).
  Proof.
    intros (A1 & A2) (B1 & B2). rewrite param_equals_iff. unfold param_text. split.
    - intro E. apply append_inv in E. apply (cut_opt _ _ ("vary = " ++ vary_text (p_vary p) ++ ", mcmc scale = " ++ show_opt show (p_scale p)) ("vary = " ++ vary_text (p_vary q) ++ ", mcmc scale = " ++ show_opt show (p_scale q)) A1 B1) in E as [E1 E].
      apply append_inv in E. apply (cut "," _ _ (" mcmc scale = " ++ show_opt show (p_scale p)) (" mcmc scale = " ++ show_opt show (p_scale q))) in E as [E2 E]; try apply vary_free.
      apply append_inv in E. split; [exact E1|]. split; [now apply vary_inj|now apply opt_inj].
    - intros (-> & -> & ->). reflexivity.
  Qed.

  Ltac got H k := let x := fresh "x" in let D := fresh "D" in let A := fresh "A" in destruct (H k ltac:(cbn; tauto)) as (x & D & A); unfold dget_res at 1; rewrite D; cbn [bind].
  Lemma cut_opt' x y r s : among F x -> among F y -> show_opt show x ++ String "," (String " " r) = show_opt show y ++ String "," (String " " s) -> x = y /\ r = s.
  Proof. exact (cut_opt x y r s). Qed.
  Ltac step E := cbn [append] in E; repeat apply chr_inv in E; first [apply cut_opt' in E as [? E]; [|assumption|assumption] | apply opt_inj in E; [|assumption|assumption]].
  Lemma kernels_told kind kind' h h' t : hyper_among F (hyper_names kind) h -> hyper_among F (hyper_names kind') h' ->
    kernel_text show kind h = Ok t -> kernel_text show kind' h' = Ok t -> kind = kind' /\ same_hyper (hyper_names kind) h h'.
  Proof.
    intros A B E E'. destruct kind, kind'; cbn [kernel_text] in E, E'; revert E E'.
    all: try (intros E E'; exfalso; repeat match type of E with (do _ <- ?m; _) = _ => destruct m; [cbn [bind] in E|discriminate] end; repeat match type of E' with (do _ <- ?m; _) = _ => destruct m; [cbn [bind] in E'|discriminate] end; rewrite <- E in E'; cbn in E'; discriminate).
    - got A "gp_length". got A "gp_amp". got B "gp_length". got B "gp_amp". intros E E'. rewrite <- E in E'. apply ok_inv in E'. step E'. step E'. split; [reflexivity|].
      intros k [<-|[<-|[]]]; congruence.
    - got A "gp_length". got A "gp_amp". got A "gp_per". got B "gp_length". got B "gp_amp". got B "gp_per". intros E E'. rewrite <- E in E'. apply ok_inv in E'. step E'. step E'. step E'. split; [reflexivity|].
      intros k [<-|[<-|[<-|[]]]]; congruence.
    - got A "gp_perlength". got A "gp_amp". got A "gp_per". got A "gp_explength". got B "gp_perlength". got B "gp_amp". got B "gp_per". got B "gp_explength". intros E E'. rewrite <- E in E'. apply ok_inv in E'. step E'. step E'. step E'. step E'. split; [reflexivity|].
      intros k [<-|[<-|[<-|[<-|[]]]]]; congruence.
  Qed.
  Lemma celerite_told h h' t : hyper_among F ["gp_B"; "gp_C"; "gp_L"; "gp_Prot"] h -> hyper_among F ["gp_B"; "gp_C"; "gp_L"; "gp_Prot"] h' ->
    celerite_text show h = Ok t -> celerite_text show h' = Ok t -> same_hyper ["gp_B"; "gp_C"; "gp_L"; "gp_Prot"] h h'.
  Proof.
    intros A B. unfold celerite_text.
    got A "gp_B". got A "gp_C". got A "gp_L". got A "gp_Prot". got B "gp_B". got B "gp_C". got B "gp_L". got B "gp_Prot". intros E E'. rewrite <- E in E'. apply ok_inv in E'. step E'. step E'. step E'.
    cbn [append] in E'. repeat apply chr_inv in E'. apply dot_inv in E'. apply opt_inj in E'; [|assumption|assumption].
    intros k [<-|[<-|[<-|[<-|[]]]]]; congruence.
  Qed.
End Told.
Lemma kernel_has_text show kind h : (forall k, In k (hyper_names kind) -> exists x, dget h k = Some x) -> exists t, kernel_text show kind h = Ok t.
Proof.
  intro H. destruct kind; cbn [kernel_text hyper_names] in *; unfold dget_res; repeat match goal with |- context [dget h ?k] => let x := fresh "x" in let D := fresh "D" in destruct (H k ltac:(cbn; tauto)) as [x D]; rewrite D; cbn [bind]; clear D end; eauto.
Qed.
Lemma linear_untold show p : exists q, param_text show p = param_text show q /\ param_equals p q = true /\ p <> q.
Proof.
  exists (mkParam (p_value p) (p_vary p) (p_scale p) (negb (p_lin p))). split; [reflexivity|]. split; [now apply param_equals_iff|]. intro E. assert (p_lin p = negb (p_lin p)) as H by now rewrite E at 1. destruct (p_lin p); discriminate.
Qed.

(** the examples *)
Lemma x_shown : shown_apart xshow xF.
Proof.
  split; [exact xshow_told|]. intros [r| | |] H E; cbn in H; try discriminate. destruct H as [z ->]. rewrite x_num in E.
  eapply int_not_word; [exact E|]. left. exists "N"%char, "one". repeat split; discriminate.
Qed.
Lemma x_param : shown_apart xshow xF /\ param_among xF (mkParam (Some 10%R) (VBool true) None false) /\
  param_text xshow (mkParam (Some 10%R) (VBool true) None false) = "Parameter object: value = 10, vary = True, mcmc scale = None".
Proof. split; [exact x_shown|]. split; [split; cbn; eauto|]. unfold param_text. cbn [p_value p_vary p_scale show_opt]. rewrite x_num. reflexivity. Qed.
Lemma x_kernel : hyper_among xF (hyper_names SqExp) [("gp_amp", Some 2%R); ("gp_length", Some 10%R)] /\
  kernel_text xshow SqExp [("gp_amp", Some 2%R); ("gp_length", Some 10%R)] = Ok "SqExp Kernel with length: 10, amp: 2".
Proof.
  split.
  - intros k [<-|[<-|[]]]; eexists; (split; [reflexivity|cbn; eauto]).
  - cbn [kernel_text]. unfold dget_res. cbn [dget String.eqb Ascii.eqb Bool.eqb bind fst snd]. cbn [show_opt]. rewrite !x_num. reflexivity.
Qed.
Lemma x_celerite : hyper_among xF ["gp_B"; "gp_C"; "gp_L"; "gp_Prot"] [("gp_B", Some 2%R); ("gp_C", Some 1%R); ("gp_L", Some 10%R); ("gp_Prot", Some 10%R)] /\
  celerite_text xshow [("gp_B", Some 2%R); ("gp_C", Some 1%R); ("gp_L", Some 10%R); ("gp_Prot", Some 10%R)] = Ok "Celerite Kernel with B = 2, C = 1, L = 10, Prot = 10.".
Proof.
  split.
  - intros k [<-|[<-|[<-|[<-|[]]]]]; eexists; (split; [reflexivity|cbn; eauto]).
  - unfold celerite_text, dget_res. cbn [dget String.eqb Ascii.eqb Bool.eqb bind fst snd]. cbn [show_opt]. rewrite !x_num. reflexivity.
Qed.
