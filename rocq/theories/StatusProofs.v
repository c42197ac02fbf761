(** C46, C47: the status file. *)
From Coq Require Import String Ascii Arith Bool Lia List.
From Verif Require Import Py PyFacts Params Mass Status.
Import ListNotations.
Open Scope string_scope.

Fixpoint sall (p : ascii -> bool) (s : string) : bool :=
  match s with "" => true | String c r => p c && sall p r end.
Definition plain (c : ascii) : bool := negb (Ascii.eqb c nl) && negb (Ascii.eqb c cr).

Ltac chars c := destruct c as [[|] [|] [|] [|] [|] [|] [|] [|]].

Lemma sall_app p a b : sall p (a ++ b) = sall p a && sall p b.
Proof. induction a as [|c a IH]; cbn; auto. now rewrite IH, andb_assoc. Qed.
Lemma sall_impl (p q : ascii -> bool) s : (forall c, p c = true -> q c = true) -> sall p s = true -> sall q s = true.
Proof. intro H. induction s as [|c s IH]; cbn; auto. rewrite !andb_true_iff. intros []. auto. Qed.
Lemma app_nil_r s : (s ++ "")%string = s.
Proof. induction s; cbn; congruence. Qed.
Lemma app_assoc_s (a b c : string) : ((a ++ b) ++ c)%string = (a ++ (b ++ c))%string.
Proof. induction a; cbn; congruence. Qed.

(** ** stripping *)
Lemma sall_lstrip p s : sall p s = true -> sall p (lstrip s) = true.
Proof. induction s as [|c s IH]; cbn; auto. intro H. destruct (is_space c); auto. apply andb_true_iff in H. tauto. Qed.
Lemma rstrip_cons c r : rstrip (String c r) = match rstrip r with "" => if is_space c then "" else String c "" | r' => String c r' end.
Proof. reflexivity. Qed.
Lemma sall_rstrip p s : sall p s = true -> sall p (rstrip s) = true.
Proof.
  induction s as [|c s IH]; auto. intro H. cbn in H. apply andb_true_iff in H. destruct H as [H1 H2]. rewrite rstrip_cons. specialize (IH H2).
  destruct (rstrip s); [destruct (is_space c); cbn; now rewrite ?H1|]. cbn in *. now rewrite H1.
Qed.
Lemma sall_strip p s : sall p s = true -> sall p (strip s) = true.
Proof. intro H. apply sall_rstrip, sall_lstrip, H. Qed.
Lemma rstrip_idem s : rstrip (rstrip s) = rstrip s.
Proof.
  induction s as [|c s IH]; auto. rewrite rstrip_cons. destruct (rstrip s) as [|c' s'] eqn:E.
  - destruct (is_space c) eqn:Ec; auto. cbn. now rewrite Ec.
  - rewrite rstrip_cons, IH. reflexivity.
Qed.
Lemma lstrip_head s : match lstrip s with String c _ => is_space c = false | "" => True end.
Proof. induction s as [|c s IH]; cbn; auto. destruct (is_space c) eqn:E; auto. Qed.
Lemma lstrip_nospace c s : is_space c = false -> lstrip (String c s) = String c s.
Proof. intro H. cbn. now rewrite H. Qed.
Lemma rstrip_nospace c s : is_space c = false -> rstrip (String c s) = String c (rstrip s).
Proof. intro H. rewrite rstrip_cons, H. destruct (rstrip s); reflexivity. Qed.
Lemma strip_nospace c s : is_space c = false -> strip (String c s) = String c (rstrip s).
Proof. intro H. unfold strip. rewrite lstrip_nospace by auto. now apply rstrip_nospace. Qed.
Lemma strip_idem s : strip (strip s) = strip s.
Proof.
  unfold strip. pose proof (lstrip_head s) as H. destruct (lstrip s) as [|c r]; auto.
  rewrite rstrip_nospace, lstrip_nospace by auto. rewrite rstrip_nospace, rstrip_idem by auto. reflexivity.
Qed.
Lemma strip_cases s : strip s = "" \/ exists c r, strip s = String c r /\ is_space c = false /\ rstrip r = r.
Proof.
  unfold strip. pose proof (lstrip_head s) as H. destruct (lstrip s) as [|c r]; [now left|]. right. exists c, (rstrip r). rewrite rstrip_nospace by auto. now rewrite rstrip_idem.
Qed.
Lemma stripped_r s : strip s = s -> rstrip s = s.
Proof. destruct (strip_cases s) as [E|(c & r & E & Hc & Hr)]; intro H; rewrite <- H, E; auto. rewrite rstrip_nospace, Hr; auto. Qed.
Lemma strip_space c s : is_space c = true -> strip (String c s) = strip s.
Proof. intro H. unfold strip. cbn. now rewrite H. Qed.
Lemma rstrip_app a b : rstrip (a ++ b) = match rstrip b with "" => rstrip a | b' => a ++ b' end.
Proof.
  induction a as [|c a IH]; cbn [append].
  - destruct (rstrip b); reflexivity.
  - rewrite rstrip_cons, IH. destruct (rstrip b) as [|cb rb]; [now rewrite rstrip_cons|]. destruct a; reflexivity.
Qed.

(** ** lines *)
Lemma lines_plain a b : sall plain a = true -> lines (a ++ String nl b) = a :: lines b.
Proof.
  induction a as [|c a IH]; cbn [append sall].
  - intros _. reflexivity.
  - intro H. apply andb_true_iff in H. destruct H as [H1 H2]. unfold plain in H1. apply andb_true_iff in H1. destruct H1 as [H1 H3].
    cbn [lines]. rewrite negb_true_iff in H1, H3. rewrite H1, H3, IH by auto. reflexivity.
Qed.
Fixpoint pieces (v : string) : list string :=
  match v with
  | "" => [""]
  | String c r => if Ascii.eqb c nl then "" :: pieces r else match pieces r with l :: ls => String c l :: ls | [] => [String c ""] end
  end.
Lemma pieces_not_nil v : pieces v <> [].
Proof. destruct v as [|c v]; cbn; [discriminate|]. destruct (Ascii.eqb c nl); [discriminate|]. destruct (pieces v); discriminate. Qed.
Definition notcr (c : ascii) : bool := negb (Ascii.eqb c cr).
Lemma lines_value v : forall p b, sall plain p = true -> sall notcr v = true ->
  lines (p ++ indent_lines v ++ line_end ++ b) = match pieces v with l0 :: ls => (p ++ l0) :: (map (String tab) ls ++ lines b)%list | [] => [] end.
Proof.
  unfold line_end. induction v as [|c v IH]; intros p b Hp Hv; cbn [indent_lines pieces append].
  - rewrite lines_plain, app_nil_r; auto.
  - cbn [sall] in Hv. apply andb_true_iff in Hv. destruct Hv as [H1 H2]. destruct (Ascii.eqb c nl) eqn:E.
    + cbn [append]. rewrite lines_plain, app_nil_r by auto. f_equal.
      specialize (IH (String tab "") b eq_refl H2). cbn [append] in IH. rewrite IH.
      destruct (pieces v) as [|l ls] eqn:EP; [destruct (pieces_not_nil v EP)|]. reflexivity.
    + specialize (IH (p ++ String c "") b). rewrite app_assoc_s in IH. cbn [append] in IH. cbn [append]. rewrite IH; auto.
      * destruct (pieces v) as [|l ls] eqn:EP; [destruct (pieces_not_nil v EP)|]. rewrite app_assoc_s. reflexivity.
      * rewrite sall_app, Hp. cbn. unfold plain. unfold notcr in H1. now rewrite E, H1.
Qed.
Lemma pieces_plain v : sall notcr v = true -> Forall (fun l => sall plain l = true) (pieces v).
Proof.
  induction v as [|c v IH]; cbn [pieces sall]; [repeat constructor|]. intro H. apply andb_true_iff in H. destruct H as [H1 H2]. specialize (IH H2).
  destruct (Ascii.eqb c nl) eqn:E; [constructor; auto|]. destruct (pieces v) as [|l ls]; [constructor|].
  - cbn. unfold plain. unfold notcr in H1. now rewrite E, H1.
  - constructor.
  - inversion IH; subst. constructor; auto. cbn. unfold plain. unfold notcr in H1. now rewrite E, H1.
Qed.
Fixpoint joinl (l : list string) : string := match l with [] => "" | [a] => a | a :: r => a ++ String nl (joinl r) end.
Lemma joinl_cons a b r : joinl (a :: b :: r) = a ++ String nl (joinl (b :: r)).
Proof. reflexivity. Qed.
Lemma join_pieces v : joinl (pieces v) = v.
Proof.
  induction v as [|c v IH]; auto. cbn [pieces]. destruct (Ascii.eqb_spec c nl) as [->|N].
  - destruct (pieces v) as [|l ls] eqn:EP; [destruct (pieces_not_nil v EP)|]. rewrite joinl_cons, IH. reflexivity.
  - destruct (pieces v) as [|l ls] eqn:EP; [destruct (pieces_not_nil v EP)|]. destruct ls; cbn [joinl] in *; cbn; now rewrite IH.
Qed.
Lemma pieces_join a : sall plain a = true -> pieces a = [a].
Proof.
  induction a as [|c a IH]; auto. cbn [sall pieces]. intro H. apply andb_true_iff in H. destruct H as [H1 H2]. rewrite IH by auto.
  unfold plain in H1. apply andb_true_iff in H1. destruct H1 as [H1 _]. apply negb_true_iff in H1. now rewrite H1.
Qed.
Lemma pieces_app a b : sall plain a = true -> pieces (a ++ String nl b) = a :: pieces b.
Proof.
  induction a as [|c a IH]; auto. cbn [sall append pieces]. intro H. apply andb_true_iff in H. destruct H as [H1 H2]. rewrite IH by auto.
  unfold plain in H1. apply andb_true_iff in H1. destruct H1 as [H1 _]. apply negb_true_iff in H1. now rewrite H1.
Qed.
Lemma pieces_snoc v s : sall plain s = true -> pieces (v ++ String nl s) = (pieces v ++ [s])%list.
Proof.
  intro Hs. induction v as [|c v IH]; cbn [append pieces].
  - rewrite Ascii.eqb_refl, pieces_join; auto.
  - rewrite IH. destruct (Ascii.eqb c nl); auto. destruct (pieces v) as [|l ls] eqn:EP; [destruct (pieces_not_nil v EP)|]. reflexivity.
Qed.

Lemma lines_all_plain t : forall l, In l (lines t) -> sall plain l = true.
Proof.
  assert (forall n t, (String.length t <= n)%nat -> forall l, In l (lines t) -> sall plain l = true) as Q.
  { induction n as [|n IH]; intros [|c r] L l; cbn [lines String.length] in *; try lia; try (intros []; fail).
    destruct (Ascii.eqb c nl) eqn:E1; [intros [<-|H]; auto; apply (IH r); auto; lia|].
    destruct (Ascii.eqb c cr) eqn:E2.
    - intros [<-|H]; auto. destruct r as [|c2 r2]; [destruct H|]. cbn [String.length] in L. destruct (Ascii.eqb c2 nl); [apply (IH r2); auto; lia|apply (IH (String c2 r2)); auto; cbn; lia].
    - assert (forall l, In l (lines r) -> sall plain l = true) as IH' by (apply IH; lia).
      destruct (lines r) as [|l0 ls]; (intros [<-|H]; [cbn; unfold plain; rewrite E1, E2; cbn|]); auto; try (destruct H; fail). apply IH'. now left. apply IH'. now right. }
  apply (Q (String.length t)). lia.
Qed.
