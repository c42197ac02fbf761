(** Proofs for C89. *)
From Coq Require Import Reals String Ascii Arith ZArith Bool Lia Lra List.
From Verif Require Import Py PyFloat PyFacts Params ParamsProofs ParTable Prior PriorTab PriorText PriorTextSpec FitText FitTextSpec FitTextThms.
Import ListNotations.
Open Scope string_scope.

Lemma free_app c a b : free c (a ++ b) <-> free c a /\ free c b.
Proof.
  unfold free. induction a as [|x a IH]; cbn; [tauto|]. split.
  - intro H. split; [|apply IH; tauto]. intros [K|K]; [tauto|]. apply (proj1 (proj1 IH (fun Z => H (or_intror Z)))). exact K.
  - intros [A B] [K|K]; [tauto|]. revert K. apply IH. tauto.
Qed.
Lemma cut c a b r s : free c a -> free c b -> a ++ String c r = b ++ String c s -> a = b /\ r = s.
Proof.
  revert b. induction a as [|x a IH]; intros [|y b] A B E; cbn in E.
  - injection E as <-. auto.
  - injection E as <- _. exfalso. apply B. now left.
  - injection E as -> _. exfalso. apply A. now left.
  - injection E as <- E. destruct (IH b) as [<- <-]; auto; intro K; [apply A|apply B]; now right.
Qed.
Lemma append_nil a : a ++ "" = a.
Proof. induction a; cbn; congruence. Qed.
Lemma append_ass a b c : (a ++ b) ++ c = a ++ b ++ c.
Proof. induction a; cbn; congruence. Qed.
Lemma butlast_end s c : butlast (s ++ String c "") = s.
Proof. induction s as [|x s IH]; [reflexivity|]. cbn [append]. destruct s as [|y s]; [reflexivity|]. cbn [append] in *.
  change (butlast (String x (String y (s ++ String c "")))) with (String x (butlast (String y (s ++ String c "")))). now rewrite IH. Qed.
Lemma append_inv a b c : a ++ b = a ++ c -> b = c.
Proof. induction a as [|x a IH]; cbn; [auto|]. intro H. injection H as H. auto. Qed.

Lemma digits_free c u : is_digit c = false -> free c (DecimalString.NilEmpty.string_of_uint u).
Proof. intro H. unfold free. induction u; cbn; try tauto; intros [K|K]; try tauto; subst c; discriminate. Qed.
Lemma nat_free c n : is_digit c = false -> free c (str_nat n).
Proof. apply digits_free. Qed.

Section Told.
Variables (show : ext -> string) (F : ext -> Prop).
Hypothesis TA : told_apart show F.
Notation num := (PriorTab.num show).

Definition ecc_line (n : nat) (u : R) : string := "e" ++ str_nat n ++ " constrained to be < " ++ num u.
Fixpoint ecc_all (l : list (nat * R)) : string := match l with [] => "" | (n, u) :: r => ecc_line n u ++ String "010" (ecc_all r) end.

Lemma ecc_text_all pl lims msg : length lims = length pl -> ecc_text show pl lims msg = Ok (msg ++ ecc_all (combine pl lims)).
Proof.
  revert lims msg. induction pl as [|n pl IH]; intros [|u lims] msg L; try discriminate; cbn [ecc_text combine ecc_all]; [now rewrite append_nil|].
  rewrite IH by (cbn in L; lia). unfold ecc_line, PriorTab.nl. f_equal. repeat (rewrite append_ass || cbn [append]). reflexivity.
Qed.
Lemma line_free n u : F (Fin u) -> free "010" (ecc_line n u).
Proof.
  intro H. unfold ecc_line. cbn [append]. intros [K|K]; [discriminate|]. revert K. apply free_app. split; [now apply nat_free|].
  cbn. intros K. repeat destruct K as [K|K]; try discriminate. revert K. apply (proj1 TA _ H).
Qed.
Lemma line_inj n u m w : F (Fin u) -> F (Fin w) -> ecc_line n u = ecc_line m w -> n = m /\ u = w.
Proof.
  intros A B E. unfold ecc_line in E. cbn [append] in E. injection E as E. apply cut in E as [E1 E2]; [|now apply nat_free|now apply nat_free].
  apply str_nat_inj in E1. subst m. split; auto. cbn [append] in E2. injection E2 as E2. apply (proj2 TA) in E2; auto. now injection E2.
Qed.
Lemma all_inj l k : Forall (fun x => F (Fin (snd x))) l -> Forall (fun x => F (Fin (snd x))) k -> ecc_all l = ecc_all k -> l = k.
Proof.
  intros A. revert k. induction A as [|[n u] l Hu Hl IH]; intros [|[m w] k] B E; cbn [ecc_all] in E.
  - reflexivity.
  - discriminate.
  - discriminate.
  - inversion B as [|? ? Hw Hk]; subst. cbn in Hu, Hw. apply cut in E as [E1 E2]; [|now apply line_free|now apply line_free].
    apply line_inj in E1 as [<- <-]; auto. f_equal. now apply IH.
Qed.
(** without the last newline *)
Lemma all_end l : l <> [] -> exists s, ecc_all l = s ++ String "010" "" /\ s <> "".
Proof.
  induction l as [|[n u] [|x r] IH]; intro N; [easy| |].
  - exists (ecc_line n u). split; [reflexivity|discriminate].
  - destruct IH as (s & E & _); [discriminate|]. exists (ecc_line n u ++ String "010" s). split; [|discriminate].
    change (ecc_all ((n, u) :: x :: r)) with (ecc_line n u ++ String "010" (ecc_all (x :: r))). rewrite E, append_ass. reflexivity.
Qed.
Lemma shown_inj l k : Forall (fun x => F (Fin (snd x))) l -> Forall (fun x => F (Fin (snd x))) k -> butlast (ecc_all l) = butlast (ecc_all k) -> l = k.
Proof.
  intros A B E. apply all_inj; auto. destruct l as [|x l], k as [|y k]; auto.
  - destruct (all_end (y :: k)) as (s & Q & N); [discriminate|]. rewrite Q, butlast_end in E. now subst s.
  - destruct (all_end (x :: l)) as (s & Q & N); [discriminate|]. rewrite Q, butlast_end in E. now subst s.
  - destruct (all_end (y :: k)) as (s & Q & N); [discriminate|]. destruct (all_end (x :: l)) as (s' & Q' & N'); [discriminate|].
    rewrite Q, Q', !butlast_end in E. congruence.
Qed.
Lemma limits_in pl lims : length lims = length pl -> Forall (fun u => F (Fin u)) lims -> Forall (fun x : nat * R => F (Fin (snd x))) (combine pl lims).
Proof.
  revert lims. induction pl as [|n pl IH]; intros [|u lims] L H; try discriminate; cbn; constructor; inversion H; subst; auto.
Qed.
Lemma combine_inj (a c : list nat) (b d : list R) : length b = length a -> length d = length c -> combine a b = combine c d -> a = c /\ b = d.
Proof.
  revert b c d. induction a as [|x a IH]; intros [|y b] [|z c] [|w d] L M E; try discriminate; auto. cbn in E. injection E as <- <- E.
  destruct (IH b c d) as [<- <-]; auto.
Qed.
Lemma ecc_first l : l = [] \/ exists r, butlast (ecc_all l) = String "e" r.
Proof.
  destruct l as [|[n u] l]; [now left|right]. destruct (all_end ((n, u) :: l)) as (s & E & N); [discriminate|]. rewrite E, butlast_end.
  destruct s as [|c s]; [easy|]. cbn [ecc_all] in E. unfold ecc_line in E. cbn [append] in E. injection E as <- _. eauto.
Qed.

(** name, number, number, after a prefix *)
Lemma two s s' a b a' b' r1 r2 r1' r2' : plain s -> plain s' -> F a -> F b -> F a' -> F b' ->
  s ++ String "," (r1 ++ show a ++ String "," (r2 ++ show b)) = s' ++ String "," (r1' ++ show a' ++ String "," (r2' ++ show b')) ->
  r1 = r1' -> r2 = r2' -> s = s' /\ a = a' /\ b = b'.
Proof.
  intros S S' A B A' B' E <- <-. apply cut in E as [<- E]; [|apply S|apply S']. split; auto. apply append_inv in E.
  apply cut in E as [E1 E2]; [|now apply (proj1 TA)|now apply (proj1 TA)]. apply append_inv in E2. split; now apply (proj2 TA).
Qed.

Lemma identified t t' p q s : stated F p -> stated F q -> description show t p = Ok s -> description show t' q = Ok s -> p = q.
Proof.
  intros P Q A B. rewrite <- B in A. clear B s.
  assert (forall pl lims, length lims = length pl -> description show t (PEcc pl lims) = Ok (butlast (ecc_all (combine pl lims))) /\
    description show t' (PEcc pl lims) = Ok (butlast (ecc_all (combine pl lims)))) as EC.
  { intros pl lims L. cbn [description]. now rewrite ecc_text_all. }
  destruct p as [s mu sg|pl lims|?|s a b|? ? ?|s a b nm|s a b k nm|? ? ?|? ? ?|s a b|? ? ? ? ?]; try contradiction;
  destruct q as [s' mu' sg'|pl' lims'|?|s' a' b'|? ? ?|s' a' b' nm'|s' a' b' k' nm'|? ? ?|? ? ?|s' a' b'|? ? ? ? ?]; try contradiction;
  try discriminate A;
  try (destruct P as [L _]; destruct (EC pl lims L) as [E _]; rewrite E in A; cbn [description prior_repr] in A;
       destruct (ecc_first (combine pl lims)) as [Z|[r Z]]; [rewrite Z in A|rewrite Z in A]; discriminate A);
  try (destruct Q as [L _]; destruct (EC pl' lims' L) as [_ E]; rewrite E in A; cbn [description prior_repr] in A;
       destruct (ecc_first (combine pl' lims')) as [Z|[r Z]]; [rewrite Z in A|rewrite Z in A]; discriminate A).
  - destruct P as (P1 & P2 & P3), Q as (Q1 & Q2 & Q3). cbn [description prior_repr] in A. injection A as A.
    apply (two s s' (Fin mu) (Fin sg) (Fin mu') (Fin sg') " mu=" " sigma=" " mu=" " sigma=") in A as (-> & [= ->] & [= ->]); auto.
  - destruct P as [L H], Q as [L' H']. rewrite (proj1 (EC pl lims L)), (proj2 (EC pl' lims' L')) in A. injection A as A.
    apply shown_inj in A; [|now apply limits_in|now apply limits_in]. apply combine_inj in A as [-> ->]; auto.
  - destruct P as (P1 & P2 & P3), Q as (Q1 & Q2 & Q3). cbn [description prior_repr] in A. injection A as A.
    apply (two s s' a b a' b' " min=" " max=" " min=" " max=") in A as (-> & -> & ->); auto.
  - destruct P as (P1 & P2 & P3 & P4), Q as (Q1 & Q2 & Q3 & Q4). cbn [description prior_repr] in A. injection A as A.
    apply (two s s' (Fin a) (Fin b) (Fin a') (Fin b') " min=" " max=" " min=" " max=") in A as (-> & [= ->] & [= ->]); auto.
    rewrite P4 in Q4. now injection Q4 as ->.
  - destruct P as (P1 & P2 & P3 & P4 & P5), Q as (Q1 & Q2 & Q3 & Q4 & Q5). cbn [description prior_repr] in A. injection A as A.
    change (s ++ String "," (" knee=" ++ num k ++ String "," (" min=" ++ num a ++ ", max=" ++ num b)) =
            s' ++ String "," (" knee=" ++ num k' ++ String "," (" min=" ++ num a' ++ ", max=" ++ num b'))) in A.
    apply cut in A as [<- A]; [|apply P1|apply Q1]. apply append_inv in A. apply cut in A as [A1 A2]; [|now apply (proj1 TA)|now apply (proj1 TA)].
    apply append_inv in A2. apply cut in A2 as [A2 A3]; [|now apply (proj1 TA)|now apply (proj1 TA)]. cbn [append] in A3. injection A3 as A3.
    apply (proj2 TA) in A1, A2, A3; auto. injection A1 as <-. injection A2 as <-. injection A3 as <-. rewrite P5 in Q5. now injection Q5 as ->.
  - destruct P as (P1 & P2 & P3), Q as (Q1 & Q2 & Q3). cbn [description prior_repr] in A. injection A as A.
    apply (two s s' (Fin a) (Fin b) (Fin a') (Fin b') " baseline=" " duration=" " baseline=" " duration=") in A as (-> & [= ->] & [= ->]); auto.
Qed.
End Told.
