(** C89: the theorems about a posterior's text, what is not told, and examples. *)
From Coq Require Import Reals String Ascii Arith ZArith Bool Lia Lra Decimal DecimalString DecimalZ List.
From Verif Require Import Py PyFloat PyFacts PyFloatFacts Params ParamsProofs ParTable Kepler Basis VConv Likelihood Prior PriorTab PriorText PriorTextSpec PriorTextProofs FitText FitTextSpec FitTextThms.
Import ListNotations.
Open Scope string_scope.

Lemma lines_free s : free "010" s -> lines s = [s].
Proof.
  induction s as [|c s IH]; intro H; [reflexivity|]. cbn [lines]. destruct (Ascii.eqb c "010") eqn:E.
  - apply Ascii.eqb_eq in E. subst c. exfalso. apply H. now left.
  - rewrite IH; [reflexivity|]. intro K. apply H. now right.
Qed.
Lemma lines_cut a b : free "010" a -> lines (a ++ String "010" b) = a :: lines b.
Proof. intro H. change (String "010" b) with (FitText.nl ++ b). rewrite lines_app, (lines_free a) by auto. reflexivity. Qed.

Section Told.
Variables (show : ext -> string) (F : ext -> Prop).
Hypothesis TA : told_apart show F.

Lemma closed_free c s t : existsb (Ascii.eqb c) (list_ascii_of_string s) = false -> free c t -> free c (s ++ t).
Proof.
  intros H K. apply free_app. split; auto. intro I. assert (existsb (Ascii.eqb c) (list_ascii_of_string s) = true) as Z; [|congruence].
  apply existsb_exists. exists c. split; auto. apply Ascii.eqb_refl.
Qed.
Lemma free_cons c x s : x <> c -> free c s -> free c (String x s).
Proof. intros A B [K|K]; [congruence|now apply B]. Qed.
Lemma ecc_lines_shown t pl lims d : pl <> [] -> length lims = length pl -> Forall (fun u => F (Fin u)) lims -> description show t (PEcc pl lims) = Ok d ->
  Forall2 (fun x l => l = "e" ++ str_nat (fst x) ++ " constrained to be < " ++ num show (snd x)) (combine pl lims) (lines d).
Proof.
  intros N L H E. cbn [description] in E. rewrite ecc_text_all in E by auto. cbn [bind append] in E. injection E as <-.
  pose proof (limits_in F pl lims L H) as G. assert (combine pl lims <> []) as NC by (destruct pl, lims; cbn in *; congruence).
  revert G NC. generalize (combine pl lims) as l. clear pl lims N L H. induction l as [|[n u] [|y r] IH]; intros G NC; [easy| |].
  - cbn [ecc_all]. rewrite butlast_end. inversion G; subst. rewrite lines_free by (now apply (line_free show F TA)). repeat constructor.
  - destruct (all_end show (y :: r)) as (s & Q & _); [discriminate|]. inversion G as [|? ? G1 G2]; subst. specialize (IH G2 ltac:(discriminate)).
    rewrite Q, butlast_end in IH. change (ecc_all show ((n, u) :: y :: r)) with (ecc_line show n u ++ String "010" (ecc_all show (y :: r))).
    rewrite Q. replace (ecc_line show n u ++ String "010" (s ++ String "010" "")) with ((ecc_line show n u ++ String "010" s) ++ String "010" "")
      by now rewrite append_ass. rewrite butlast_end, lines_cut by (now apply (line_free show F TA)). constructor; auto.
Qed.

Lemma line_of t p d : stated F p -> one_line p -> description show t p = Ok d -> lines d = [d].
Proof.
  intros P O E. apply lines_free.
  assert (forall x, F x -> free "010" (show x)) as FS by (intros x Hx; now apply (proj1 TA)).
  destruct p as [s mu sg|pl lims|?|s a b|? ? ?|s a b nm|s a b k nm|? ? ?|? ? ?|s a b|? ? ? ? ?]; try contradiction.
  2:{ destruct P as [L H], pl as [|n [|? ?]], lims as [|u [|? ?]]; try discriminate. cbn [description] in E. rewrite ecc_text_all in E by auto.
      cbn [bind append combine ecc_all] in E. rewrite butlast_end in E. injection E as <-. inversion H; subst. now apply (line_free show F TA). }
  all: cbn [description prior_repr] in E; injection E as <-; unfold num; cbn [stated] in P; decompose [and] P;
    match goal with K : plain ?z |- _ => destruct K end.
  all: repeat (first [assumption | apply FS; assumption | apply free_cons; [discriminate|] | apply free_app; split]).
Qed.

Lemma texts_inj tp tq ps qs ds : Forall (fun p => stated F p /\ one_line p) ps -> Forall (fun p => stated F p /\ one_line p) qs ->
  Forall2 (fun p d => description show tp p = Ok d) ps ds -> Forall2 (fun q d => description show tq q = Ok d) qs ds -> ps = qs.
Proof.
  intros A. revert qs ds. induction A as [|p ps [P O] Hp IH]; intros qs ds B C D; inversion C; subst; inversion D; subst; auto.
  inversion B as [|q' qs' [Q1 Q2] HB]; subst. f_equal; [eapply (identified show F TA tp tq); eauto|eapply IH; eauto].
Qed.
Lemma flat_lines t ps ds : Forall (fun p => stated F p /\ one_line p) ps -> Forall2 (fun p d => description show t p = Ok d) ps ds -> flat_map lines ds = ds.
Proof.
  intros A C. revert A. induction C as [|p d ps ds E H IH]; intro A; [reflexivity|]. inversion A as [|? ? [P O] ?]; subst. cbn [flat_map].
  rewrite (line_of t p d P O E), IH by auto. reflexivity.
Qed.
Theorem posterior_tells g tb u idx v h par tp tq ps qs ds es h1 t : Forall (fun p => stated F p /\ one_line p) ps -> Forall (fun p => stated F p /\ one_line p) qs ->
  Forall2 (fun p d => description show tp p = Ok d) ps ds -> Forall2 (fun q d => description show tq q = Ok d) qs es ->
  post_repr g tb u idx v h par ds = Ok (h1, t) -> post_repr g tb u idx v h par es = Ok (h1, t) -> ps = qs.
Proof.
  intros A B C D E E'. destruct (post_lines _ _ _ _ _ _ _ _ _ _ E) as (t0 & L & L1). destruct (post_lines _ _ _ _ _ _ _ _ _ _ E') as (t0' & L' & L1').
  rewrite L in L'. injection L' as <-. rewrite L1 in L1'. apply app_inv_head in L1'. cbn [app] in L1'. injection L1' as L1'. apply app_inv_tail in L1'.
  rewrite (flat_lines tp ps ds A C), (flat_lines tq qs es B D) in L1'. subst es. eapply texts_inj; eauto.
Qed.
End Told.

(** ** What is not told *)
Lemma posk_untold show t : description show t (PPosK 1) = description show t (PPosK 2) /\
  exists pb idx v, prior_call pb idx v (PPosK 1) = Ok (Fin 0) /\ prior_call pb idx v (PPosK 2) = Ok NInf.
Proof.
  split; [reflexivity|]. exists (mkBasis "per tp e w k" 2 []), [("k1", 0%nat); ("k2", 1%nat)], [mkRow (Some 3%R) true None false; mkRow (Some (-3)%R) true None false].
  unfold prior_call, prior_eval. cbn. unfold rltb. destruct (Rlt_dec 3 0), (Rlt_dec (-3) 0); try lra. auto.
Qed.
Lemma kernel_untold show t pl : exists f f', description show t (PNumerical pl f (fun x => x)) = description show t (PNumerical pl f' (fun x => x)) /\
  description show t (PUser pl f None) = description show t (PUser pl f' None) /\ forall xs, f xs <> f' xs.
Proof. exists (fun _ => Ok (Fin 0)), (fun _ => Ok NInf). repeat split. discriminate. Qed.
Lemma eclipse_untold show t ts err : description show t (PSecEcl 1 ts err) = description show t (PSecEcl 2 ts err) /\
  exists pb idx v x, prior_call pb idx v (PSecEcl 1 ts err) = Ok x /\ prior_call pb idx v (PSecEcl 2 ts err) = Err IndexError.
Proof.
  split; [reflexivity|]. exists (mkBasis "per tp e w k" 1 []), [], (map (fun x => mkRow (Some x) true None false) [10; 2; 1 / 4; 1; 30; 0; 0]%R).
  eexists. split; reflexivity.
Qed.

(** ** Examples: the numbers are the integers *)
Definition xshow (x : ext) : string :=
  match x with Fin r => NilEmpty.string_of_int (Z.to_int (Int_part r)) | PInf => "inf" | NInf => "-inf" | NaN => "nan" end.
Definition xF (x : ext) : Prop := match x with Fin r => exists z, r = IZR z | PInf | NInf => True | NaN => False end.
Lemma int_free c z : is_digit c = false -> c <> "-"%char -> free c (NilEmpty.string_of_int (Z.to_int z)).
Proof.
  intros A B. destruct (Z.to_int z) as [u|u]; cbn; [now apply digits_free|]. intros [K|K]; [congruence|]. revert K. now apply digits_free.
Qed.
Lemma Int_IZR z : Int_part (IZR z) = z.
Proof. unfold Int_part. assert (up (IZR z) = z + 1)%Z as ->; [|lia]. symmetry. apply tech_up; rewrite plus_IZR; lra. Qed.
Lemma int_not_word z s : NilEmpty.string_of_int (Z.to_int z) = s -> (exists c r, s = String c r /\ is_digit c = false /\ c <> "-"%char) \/ s = "-inf" -> False.
Proof.
  intros E [(c & r & -> & A & B)| ->].
  - assert (In c (list_ascii_of_string (NilEmpty.string_of_int (Z.to_int z)))) as I by (rewrite E; now left). revert I. now apply int_free.
  - assert (In "i"%char (list_ascii_of_string (NilEmpty.string_of_int (Z.to_int z)))) as I by (rewrite E; right; now left). revert I. now apply int_free.
Qed.
Lemma xshow_told : told_apart xshow xF.
Proof.
  split.
  - intros [r| | |] H; cbn in *; try contradiction; split; try (now apply int_free); intro K; cbn in K; intuition discriminate.
  - intros [r| | |] [q| | |] A B E; cbn in *; try contradiction; try discriminate; auto.
    + destruct A as [z ->], B as [y ->]. rewrite !Int_IZR in E. apply (f_equal NilEmpty.int_of_string) in E. rewrite !NilEmpty.isi in E. injection E as E.
      apply (f_equal Z.of_int) in E. rewrite ?DecimalZ.of_to in E. now subst.
    + exfalso. eapply int_not_word; [exact E|]. left. exists "i"%char, "nf". repeat split; discriminate.
    + exfalso. eapply int_not_word; [exact E|]. now right.
    + exfalso. symmetry in E. eapply int_not_word; [exact E|]. left. exists "i"%char, "nf". repeat split; discriminate.
    + exfalso. symmetry in E. eapply int_not_word; [exact E|]. now right.
Qed.
Lemma x_num z : xshow (Fin (IZR z)) = NilEmpty.string_of_int (Z.to_int z).
Proof. cbn. now rewrite Int_IZR. Qed.
Definition x_gauss : prior := PGaussian "per1" 10 2.
Definition x_hard : prior := PHard "jit_a" (Fin (-3)) PInf.
Definition x_ecc : prior := PEcc [1; 3]%nat [1; 2]%R.
Lemma x_stated : stated xF x_gauss /\ stated xF x_hard /\ stated xF x_ecc /\ one_line x_gauss /\ one_line x_hard.
Proof.
  assert (forall s, existsb (Ascii.eqb ",") (list_ascii_of_string s) = false -> existsb (Ascii.eqb "010") (list_ascii_of_string s) = false -> plain s) as Q.
  { intros s A B. split; [rewrite <- (append_nil s)|rewrite <- (append_nil s)]; apply closed_free; auto; intros []. }
  unfold x_gauss, x_hard, x_ecc. cbn [stated one_line xF]. repeat split; try (now apply Q); eauto; repeat constructor; cbn; eauto.
Qed.
Lemma x_texts : description xshow "" x_gauss = Ok "Gaussian prior on per1, mu=10, sigma=2" /\
  description xshow "" x_hard = Ok "Bounded prior on jit_a, min=-3, max=inf" /\
  exists d, description xshow "" x_ecc = Ok d /\ lines d = ["e1 constrained to be < 1"; "e3 constrained to be < 2"].
Proof.
  unfold x_gauss, x_hard, x_ecc. cbn [description prior_repr ecc_text bind]. unfold num. rewrite !x_num. split; [reflexivity|]. split; [reflexivity|].
  eexists. split; reflexivity.
Qed.
