(** Proofs of C93. *)
From Coq Require Import String Ascii Arith Bool Lia List.
From Verif Require Import Py KwargsProofs Status StatusProofs StatusSpec StatusThms CompText CompTextSpec.
Import ListNotations.
Open Scope string_scope.

Definition stops (rest : string) : Prop := match rest with String c _ => word_char c = false | "" => True end.
Definition reads {A} (p : string -> ev A) (f : A -> string) (ok : A -> Prop) (bad : A -> bool) : Prop :=
  forall a rest, ok a -> stops rest -> p (f a ++ rest) = if bad a then NameError else Val a rest.

Lemma expect_app {A} t : forall s (k : string -> ev A), expect t (t ++ s) k = k s.
Proof. induction t as [|c t IH]; intros s k; [destruct s; reflexivity|]. cbn. now rewrite Ascii.eqb_refl. Qed.
Lemma unescape_escape q s rest : q = apo \/ q = quo -> unescape q (escape q s ++ String q rest) = Val s rest.
Proof.
  intro Q. assert (Ascii.eqb bsl q = false) as NB by (destruct Q as [-> | ->]; reflexivity).
  induction s as [|c s IH]; cbn [escape append unescape]; [now rewrite Ascii.eqb_refl|].
  destruct (Ascii.eqb c bsl || Ascii.eqb c q) eqn:E.
  - cbn [append unescape]. rewrite NB, Ascii.eqb_refl. assert (Ascii.eqb c bsl || Ascii.eqb c apo || Ascii.eqb c quo = true) as ->.
    { apply orb_prop in E as [E|E]; [rewrite E; reflexivity|]. apply Ascii.eqb_eq in E as ->. destruct Q as [-> | ->]; reflexivity. }
    rewrite IH. reflexivity.
  - apply orb_false_elim in E as [E1 E2]. cbn [append unescape]. rewrite E2, E1, IH. reflexivity.
Qed.
Lemma quote_two s : quote_of s = apo \/ quote_of s = quo.
Proof. unfold quote_of. destruct (_ && _); auto. Qed.
Lemma str_reads : reads eval_str repr_str (fun _ => True) (fun _ => false).
Proof.
  intros s rest _ _. unfold repr_str. cbn [append eval_str]. assert (Ascii.eqb (quote_of s) apo || Ascii.eqb (quote_of s) quo = true) as -> by (destruct (quote_two s) as [-> | ->]; reflexivity).
  rewrite sapp_assoc. cbn [append]. now rewrite unescape_escape by apply quote_two.
Qed.
Lemma str_reads' s rest : eval_str (repr_str s ++ rest) = Val s rest.
Proof.
  unfold repr_str. cbn [append eval_str]. assert (Ascii.eqb (quote_of s) apo || Ascii.eqb (quote_of s) quo = true) as -> by (destruct (quote_two s) as [-> | ->]; reflexivity).
  rewrite sapp_assoc. cbn [append]. now rewrite unescape_escape by apply quote_two.
Qed.

Section List.
  Context {A : Type} (p : string -> ev A) (f : A -> string) (ok : A -> Prop) (bad : A -> bool).
  Hypothesis R : reads p f ok bad.
  Lemma items_read l : forall fuel rest, l <> [] -> Forall ok l -> (length l <= fuel)%nat ->
    items p fuel (String.concat ", " (map f l) ++ "]" ++ rest) = if existsb bad l then NameError else Val l rest.
  Proof.
    induction l as [|a l IH]; intros fuel rest N F L; [congruence|]. apply Forall_cons_iff in F as (Fa & F). destruct fuel as [|fuel]; [cbn in L; lia|]. cbn [length] in L.
    destruct l as [|b l].
    - cbn [map String.concat items existsb]. rewrite (R a _ Fa) by reflexivity. rewrite orb_false_r. destruct (bad a); reflexivity.
    - cbn [items]. assert (String.concat ", " (map f (a :: b :: l)) ++ "]" ++ rest = f a ++ ", " ++ String.concat ", " (map f (b :: l)) ++ "]" ++ rest) as ->.
      { change (String.concat ", " (map f (a :: b :: l))) with (f a ++ ", " ++ String.concat ", " (map f (b :: l))). now rewrite !sapp_assoc. }
      rewrite (R a _ Fa) by reflexivity. cbn [existsb]. destruct (bad a); [reflexivity|]. cbn [andthen orb]. 
      change (", " ++ String.concat ", " (map f (b :: l)) ++ "]" ++ rest) with (String "," (" " ++ String.concat ", " (map f (b :: l)) ++ "]" ++ rest)) at 1.
      cbv beta iota. change (Ascii.eqb "," "]") with false. cbv iota. rewrite expect_app. rewrite IH; [|discriminate|exact F|cbn [length] in *; lia]. cbn [existsb]. destruct (bad b || existsb bad l); reflexivity.
  Qed.
  Hypothesis H : forall a, ok a -> exists c r, f a = String c r /\ Ascii.eqb c "]" = false.
  Lemma slen_app a b : String.length (a ++ b) = (String.length a + String.length b)%nat.
  Proof. induction a; cbn; lia. Qed.
  Lemma concat_len l : (length l <= S (String.length (String.concat ", " (map f l))))%nat.
  Proof.
    induction l as [|a [|b l] IH]; [cbn; lia|cbn; lia|]. change (String.concat ", " (map f (a :: b :: l))) with (f a ++ ", " ++ String.concat ", " (map f (b :: l))).
    rewrite !slen_app. cbn [length] in *. cbn [String.length]. lia.
  Qed.
  Lemma list_reads : reads (eval_list p) (repr_list f) (Forall ok) (existsb bad).
  Proof.
    intros l rest F _. unfold eval_list, repr_list. rewrite !sapp_assoc. rewrite expect_app. destruct l as [|a l]; [reflexivity|].
    set (t := String.concat ", " (map f (a :: l)) ++ "]" ++ rest). assert (exists c r, t = String c r /\ Ascii.eqb c "]" = false) as (c & r & E & N).
    { apply Forall_cons_iff in F as (Fa & _). destruct (H a Fa) as (c & r & E & N). unfold t. destruct l as [|b l]; cbn [map String.concat]; rewrite E; cbn [append]; eauto. }
    rewrite E, N, <- E. unfold t. apply items_read; [discriminate|exact F|]. rewrite slen_app. pose proof (concat_len (a :: l)). rewrite slen_app. cbn [String.length]. lia.
  Qed.
End List.

Lemma word_all t rest : all_chars word_char t = true -> stops rest -> word (t ++ rest) = (t, rest).
Proof.
  intros A S. induction t as [|c t IH]; cbn [append word].
  - destruct rest as [|c r]; [reflexivity|]. cbn in S. cbn [word]. now rewrite S.
  - cbn in A. apply andb_prop in A as [A1 A2]. rewrite A1, IH by exact A2. reflexivity.
Qed.
Lemma all_chars_in f s : (forall c, In c (list_ascii_of_string s) -> f c = true) -> all_chars f s = true.
Proof. induction s as [|c s IH]; intro H; [reflexivity|]. cbn. rewrite H by now left. apply IH. intros; apply H; now right. Qed.
Definition nan_text (t : string) : bool := String.eqb t "nan".
Lemma finite_chars t f : finite_text t -> forallb f (list_ascii_of_string "0123456789e.+-") = true -> all_chars f t = true.
Proof. intros (_ & F) A. apply all_chars_in. intros c I. rewrite forallb_forall in A. apply A. now apply F. Qed.
Lemma num_reads t rest : number_text t -> stops rest -> eval_num (t ++ rest) = if nan_text t then NameError else Val (Num t) rest.
Proof.
  intros N S. unfold eval_num. destruct N as [F | [-> | [-> | ->]]].
  - rewrite word_all by (auto; now apply finite_chars). pose proof (finite_chars t digit_char F eq_refl) as D. unfold nan_text.
    destruct (String.eqb_spec t "inf") as [->|]; [discriminate|]. destruct (String.eqb_spec t "-inf") as [->|]; [discriminate|]. destruct (String.eqb_spec t "nan") as [->|]; [discriminate|].
    destruct (String.eqb_spec t "") as [->|]; [now destruct F|]. now rewrite D.
  - now rewrite word_all.
  - now rewrite word_all.
  - now rewrite word_all.
Qed.
Definition cell_ok (c : cell) : Prop := match c with Num t => number_text t | Labels _ => True end.
Definition cell_nan (c : cell) : bool := match c with Num t => nan_text t | Labels _ => false end.
Lemma str_head s : exists c r, repr_str s = String c r /\ Ascii.eqb c "]" = false.
Proof. unfold repr_str. do 2 eexists. split; [reflexivity|]. destruct (quote_two s) as [-> | ->]; reflexivity. Qed.
Lemma none_bad {A} (l : list A) : existsb (fun _ => false) l = false.
Proof. induction l; auto. Qed.
Lemma cell_reads : reads eval_cell repr_cell cell_ok cell_nan.
Proof.
  intros c rest O S. destruct c as [l|t]; cbn [repr_cell cell_nan].
  - pose proof (list_reads _ _ _ _ str_reads (fun a _ => str_head a) l rest) as E. rewrite none_bad in E.
    assert (forall s, eval_cell (String "[" s) = andthen (eval_list eval_str (String "[" s)) (fun l r => Val (Labels l) r)) as C by reflexivity.
    change (repr_list repr_str l ++ rest) with (String "[" ((String.concat ", " (map repr_str l) ++ "]") ++ rest)) in *. rewrite C, E; [reflexivity|apply Forall_forall; auto|exact S].
  - cbn in O. assert (exists c r, t ++ rest = String c r /\ Ascii.eqb c "[" = false) as (c & r & E & N).
    { destruct O as [F | [-> | [-> | ->]]]; [|do 2 eexists; split; reflexivity..]. destruct t as [|c t]; [now destruct F|]. exists c, (t ++ rest). split; [reflexivity|].
      destruct F as (_ & F). specialize (F c (or_introl eq_refl)). cbn in F. decompose [or] F; try contradiction; subst; reflexivity. }
    unfold eval_cell. rewrite E, N, <- E. now apply num_reads.
Qed.
Definition row_ok (r : row) : Prop := cell_ok (fst (snd r)).
Definition row_nan (r : row) : bool := cell_nan (fst (snd r)).
Lemma row_reads : reads eval_row repr_row row_ok row_nan.
Proof.
  intros (k & c & d) rest O S. unfold eval_row, repr_row. cbn [fst snd row_nan]. rewrite !sapp_assoc, expect_app, str_reads'. cbn [andthen]. rewrite expect_app.
  rewrite (cell_reads c _ O) by reflexivity. unfold row_nan. cbn [fst snd]. destruct (cell_nan c); [reflexivity|]. cbn [andthen]. rewrite expect_app, str_reads'. cbn [andthen]. now rewrite expect_app.
Qed.
Lemma model_reads : reads eval_model repr_model (Forall row_ok) (existsb row_nan).
Proof.
  intros m rest O S. unfold eval_model, repr_model. rewrite !sapp_assoc, expect_app. rewrite (list_reads _ _ _ _ row_reads) by (auto; try reflexivity; intros (k & c & d) _; do 2 eexists; split; reflexivity).
  destruct (existsb row_nan m); [reflexivity|]. cbn [andthen]. now rewrite expect_app.
Qed.
Lemma numbers_rows l : numbers_ok l -> Forall (Forall row_ok) l.
Proof.
  intro N. apply Forall_forall. intros m M. apply Forall_forall. intros (k & c & d) I. unfold row_ok. cbn. destruct c as [ls|t]; [exact Logic.I|]. apply N. exists m, k, d. auto.
Qed.
Lemma comparison l : numbers_ok l -> read_back (saved l) = if existsb (existsb row_nan) l then NameError else Val l "".
Proof.
  intro N. pose proof (list_reads _ _ _ _ model_reads (fun a _ => ex_intro _ "O"%char (ex_intro _ _ (conj eq_refl eq_refl))) l "" (numbers_rows l N) I) as E. rewrite sapp_nil in E. exact E.
Qed.
Lemma nan_found l : existsb (existsb row_nan) l = true <-> numbers_of l "nan".
Proof.
  rewrite existsb_exists. split.
  - intros (m & M & E). apply existsb_exists in E as ((k & c & d) & I & E). unfold row_nan in E. cbn in E. destruct c as [|t]; [discriminate|]. cbn in E. apply String.eqb_eq in E as ->. exists m, k, d. auto.
  - intros (m & k & d & M & I). exists m. split; [exact M|]. apply existsb_exists. exists (k, (Num "nan", d)). split; [exact I|reflexivity].
Qed.
Lemma kept l : numbers_ok l -> ~ numbers_of l "nan" -> read_back (saved l) = Val l "".
Proof. intros N H. rewrite comparison by exact N. destruct (existsb (existsb row_nan) l) eqn:E; [|reflexivity]. apply nan_found in E. now destruct H. Qed.
Lemma lost l : numbers_ok l -> numbers_of l "nan" -> read_back (saved l) = NameError.
Proof. intros N H. rewrite comparison by exact N. apply nan_found in H. now rewrite H. Qed.

(** ** in the status file *)
Lemma plain_app a b : sall plain (a ++ b) = sall plain a && sall plain b.
Proof. induction a as [|c a IH]; [reflexivity|]. cbn [append sall]. rewrite IH. now rewrite andb_assoc. Qed.
Lemma plain_line s : one_line s -> sall plain s = true.
Proof.
  induction s as [|c s IH]; intro H; [reflexivity|]. cbn [sall]. rewrite IH by (intros a I; apply H; now right). destruct (H c (or_introl eq_refl)) as (A & B).
  unfold plain, nl, cr. apply Ascii.eqb_neq in A, B. now rewrite A, B.
Qed.
Lemma plain_escape q s : sall plain s = true -> sall plain (escape q s) = true.
Proof.
  induction s as [|c s IH]; intro H; [reflexivity|]. cbn [sall] in H. apply andb_prop in H as [H1 H2]. cbn [escape]. destruct (_ || _); cbn [sall]; rewrite H1, IH by exact H2; reflexivity.
Qed.
Lemma plain_str s : one_line s -> sall plain (repr_str s) = true.
Proof. intro H. unfold repr_str. cbn [sall]. rewrite plain_app, plain_escape by now apply plain_line. destruct (quote_two s) as [-> | ->]; reflexivity. Qed.
Lemma plain_list {A} (f : A -> string) l : (forall a, In a l -> sall plain (f a) = true) -> sall plain (repr_list f l) = true.
Proof.
  intro H. assert (sall plain (String.concat ", " (map f l)) = true) as C; [|unfold repr_list; rewrite !plain_app, C; reflexivity].
  induction l as [|a l IH]; [reflexivity|]. destruct l as [|b l]; [apply H; now left|].
  change (String.concat ", " (map f (a :: b :: l))) with (f a ++ ", " ++ String.concat ", " (map f (b :: l))). rewrite !plain_app, IH by (intros; apply H; now right). rewrite H by now left. reflexivity.
Qed.
Lemma sall_chars f s : sall f s = all_chars f s.
Proof. induction s; cbn; congruence. Qed.
Lemma plain_num t : number_text t -> sall plain t = true.
Proof. intros [F | [-> | [-> | ->]]]; try reflexivity. rewrite sall_chars. now apply finite_chars. Qed.
Lemma plain_saved l : numbers_ok l -> lines_ok l -> sall plain (saved l) = true.
Proof.
  intros N L. apply plain_list. intros m M. unfold repr_model. rewrite !plain_app. rewrite plain_list; [reflexivity|]. intros (k & c & d) I. unfold repr_row. cbn [fst snd]. rewrite !plain_app.
  rewrite (plain_str k), (plain_str d) by (apply L; exists m, k, c, d; auto). assert (sall plain (repr_cell c) = true) as ->; [|reflexivity].
  destruct c as [ls|t]; cbn [repr_cell]; [|apply plain_num; apply N; exists m, k, d; auto]. apply plain_list. intros s S. apply plain_str. apply L. exists m, k, (Labels ls), d. split; [exact M|]. split; [exact I|]. right. right. eauto.
Qed.
Lemma saved_val l : numbers_ok l -> lines_ok l -> val_ok (saved l).
Proof.
  intros N L. pose proof (plain_saved l N L) as P.
  assert (rstrip (saved l) = saved l) as RS. { unfold saved, repr_list. rewrite rstrip_app. change (rstrip (String.concat ", " (map repr_model l) ++ "]")) with (rstrip (String.concat ", " (map repr_model l) ++ "]")). rewrite rstrip_app. cbn [rstrip]. change (is_space "]") with false. cbv iota. destruct (String.concat ", " (map repr_model l)); reflexivity. }
  split; [|split; [|split; [|exact RS]]].
  - rewrite sall_chars in *. clear RS. revert P. generalize (saved l) as s. induction s as [|c s IH]; intro P; [reflexivity|]. cbn in *. apply andb_prop in P as [P1 P2]. rewrite IH by exact P2. unfold plain in P1. apply andb_prop in P1 as [_ P1]. unfold notcr. now rewrite P1.
  - rewrite pieces_join by exact P. constructor; [|constructor]. unfold stripped. revert RS. unfold saved, repr_list. cbn [append]. intro RS. rewrite strip_nospace by reflexivity. rewrite rstrip_nospace in RS by reflexivity. exact RS.
  - rewrite pieces_join by exact P. constructor.
Qed.
Lemma through_file f c0 l : load_status f = Ok c0 -> numbers_ok l -> lines_ok l -> ~ numbers_of l "nan" ->
  exists c, save_status f "ic_compare" [("ic", saved l)] = (Some (write c), Ok tt) /\ load_status (Some (write c)) = Ok c /\
    exists s, status c "ic_compare" "ic" = Some s /\ read_back s = Val l "".
Proof.
  intros E N L NN. destruct (save_one f "ic_compare" [("ic", saved l)] c0 E) as (c & S & LD & _ & _ & ST).
  { split; [split; [discriminate|reflexivity]|]. split; [discriminate|]. cbn [snd]. constructor; [|constructor]. cbn [fst snd]. split; [|split; [now apply saved_val|reflexivity]]. repeat split; try reflexivity; discriminate. }
  exists c. split; [exact S|]. split; [exact LD|]. exists (saved l). split; [|now apply kept]. rewrite ST. reflexivity.
Qed.
