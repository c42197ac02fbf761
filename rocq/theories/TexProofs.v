(** C67: proofs. *)
From Coq Require Import String Ascii Arith Bool Lia List.
From Verif Require Import Py PyFacts Params ParamsProofs ParamsSpec Basis BasisThms VectorProofs Likelihood DecorrSpec DecorrProofs ParTable ParTableProofs TexLabels TexSpec.
Import ListNotations.
Open Scope string_scope.

Lemma last_app a c : last_char (a ++ String c "") = Some c.
Proof. induction a as [|x a IH]; [reflexivity|]. cbn. destruct (a ++ String c "") eqn:E; [destruct a; discriminate|exact IH]. Qed.
Lemma butlast_app a c : butlast (a ++ String c "") = a.
Proof. induction a as [|x a IH]; [reflexivity|]. cbn. destruct (a ++ String c "") eqn:E; [destruct a; discriminate|]. now rewrite IH. Qed.
Lemma ends_cases s : s = "" \/ exists p c, s = p ++ String c "".
Proof.
  induction s as [|x s IH]; [now left|]. right. destruct IH as [->|(p & c & ->)]; [exists "", x; reflexivity|exists (String x p), c; reflexivity].
Qed.
Lemma app_assoc_s (a b c : string) : a ++ (b ++ c) = (a ++ b) ++ c.
Proof. induction a; cbn; [reflexivity|]. now rewrite IHa. Qed.
Lemma last_app2 a b : b <> "" -> last_char (a ++ b) = last_char b.
Proof. intro H. destruct (ends_cases b) as [->|(p & c & ->)]; [easy|]. rewrite app_assoc_s, !last_app. reflexivity. Qed.
Lemma butlast_app2 a b : b <> "" -> butlast (a ++ b) = a ++ butlast b.
Proof. intro H. destruct (ends_cases b) as [->|(p & c & ->)]; [easy|]. rewrite app_assoc_s, !butlast_app. reflexivity. Qed.
Lemma last_some b : b <> "" -> exists c, last_char b = Some c.
Proof. intro H. destruct (ends_cases b) as [->|(p & c & ->)]; [easy|]. rewrite last_app. eauto. Qed.

Lemma length_app_s a b : String.length (a ++ b) = String.length a + String.length b.
Proof. induction a; cbn; congruence. Qed.
Lemma subst_none s r p : forall f, s <> "" -> String.length p < f -> ~ occurs s p -> subst_all f s r p = p.
Proof.
  induction p as [|c p IH]; intros f Hs L H; (destruct f as [|f]; [lia|]); cbn [subst_all].
  - destruct (strip_prefix s "") as [q|] eqn:E; [|reflexivity]. apply strip_spec in E. destruct s; easy.
  - destruct (strip_prefix s (String c p)) as [q|] eqn:E.
    + apply strip_spec in E. exfalso. apply H. exists "", q. exact E.
    + f_equal. apply IH; [exact Hs|cbn in L; lia|]. intros (a & b & E2). apply H. exists (String c a), b. now rewrite E2.
Qed.
(** a name at the front, nowhere else *)
Lemma replace_front s r rest : s <> "" -> ~ occurs s rest -> replace_by s r (s ++ rest) = r ++ rest.
Proof.
  intros Hs H. unfold replace_by. rewrite length_app_s. cbn [subst_all]. assert (strip_prefix s (s ++ rest) = Some rest) as -> by (now apply strip_spec).
  rewrite subst_none; auto. destruct s; [easy|]. cbn. lia.
Qed.
Lemma not_occurs_tail m c s : ~ occurs m (String c s) -> ~ occurs m s.
Proof. intros H (p & q & ->). apply H. exists (String c p), q. reflexivity. Qed.
Lemma substr_false m s : ~ occurs m s -> substr_in m s = false.
Proof. intro H. destruct (substr_in m s) eqn:E; [|reflexivity]. apply substr_occurs in E. contradiction. Qed.
Lemma substr_front m s : substr_in m (m ++ s) = true.
Proof. apply substr_occurs. exists "", s. reflexivity. Qed.

Lemma substr_skip m c s : String.prefix m (String c s) = false -> substr_in m (String c s) = substr_in m s.
Proof. intro H. unfold substr_in. cbn [String.index]. rewrite H. destruct (String.index 0 m s); reflexivity. Qed.
Ltac skip := cbn [append]; repeat rewrite substr_skip by reflexivity.

(** ** the loop over the table: the last entry that occurs decides *)
Definition form (k : string) (e : string * string) : string :=
  let l := "$" ++ replace_by (fst e) (snd e) k ++ "}$" in if startswith k "gp_" then replace_by "}_" ", \rm " l else l.
Lemma scan_miss k L : forall acc, (forall e, In e L -> substr_in (fst e) k && (1 <? String.length (fst e))%nat = false) -> fold_left (scan_step k) L acc = acc.
Proof.
  induction L as [|e L IH]; intros acc H; [reflexivity|]. cbn [fold_left]. unfold scan_step at 2. rewrite (H e) by now left. apply IH. intros; apply H; now right.
Qed.
Lemma scan_last k A e B acc : substr_in (fst e) k = true -> 1 < String.length (fst e) ->
  (forall e', In e' B -> substr_in (fst e') k && (1 <? String.length (fst e'))%nat = false) ->
  fold_left (scan_step k) (A ++ e :: B) acc = Some (form k e).
Proof.
  intros H L M. rewrite fold_left_app. cbn [fold_left]. rewrite scan_miss by exact M. unfold scan_step. rewrite H. apply Nat.ltb_lt in L. rewrite L. reflexivity.
Qed.
Lemma scan_acc k L : forall acc, fold_left (scan_step k) L acc = match fold_left (scan_step k) L None with Some l => Some l | None => acc end.
Proof.
  induction L as [|e L IH]; intro acc; [reflexivity|]. cbn [fold_left]. rewrite IH. rewrite (IH (scan_step k None e)). unfold scan_step. destruct (_ && _); destruct (fold_left _ L None); reflexivity.
Qed.
Lemma label_again pp letters k l : tex_label pp letters k None = Ok l -> tex_label pp letters k (Some l) = Ok l.
Proof.
  unfold tex_label. destruct (last_char k) as [c|]; [|discriminate].
  destruct (match digit_of c with Some n => _ | None => _ end) as [a|]; [|discriminate]. cbn [bind]. destruct a as [a|]; [auto|].
  destruct (dmem texdict k) eqn:D.
  - unfold dmem in D. destruct (dget texdict k); [auto|discriminate].
  - destruct (existsb (String.eqb (butlast k)) pp); [auto|]. rewrite (scan_acc k texdict (Some l)). destruct (fold_left (scan_step k) texdict None); auto.
Qed.

(** ** all keys *)
Lemma labels_loop pp letters ks : forall d0 d, (forall k l, dget d0 k = Some l -> tex_label pp letters k None = Ok l) ->
  for_each ks (fun d k => do l <- tex_label pp letters k (dget d k); Ok (dset d k l)) d0 = Ok d ->
  (forall k l, dget d k = Some l -> tex_label pp letters k None = Ok l) /\ (forall k, dget d k <> None <-> dget d0 k <> None \/ In k ks).
Proof.
  induction ks as [|k ks IH]; intros d0 d H E; cbn [for_each] in E.
  - injection E as <-. split; [exact H|]. cbn. tauto.
  - destruct (tex_label pp letters k (dget d0 k)) as [l|] eqn:El; [|discriminate]. cbn [bind] in E.
    assert (tex_label pp letters k None = Ok l) as L0.
    { destruct (dget d0 k) as [l0|] eqn:E0; [|exact El]. pose proof (H _ _ E0) as X. rewrite (label_again _ _ _ _ X) in El. congruence. }
    apply IH in E.
    + destruct E as [E1 E2]. split; [exact E1|]. intro k'. rewrite E2. destruct (string_dec k' k) as [->|N].
      * rewrite dget_dset_same. cbn. intuition discriminate.
      * rewrite dget_dset_other by exact N. cbn. intuition congruence.
    + intros k' l'. destruct (string_dec k' k) as [->|N]; [rewrite dget_dset_same; intros [= <-]; exact L0|]. rewrite dget_dset_other by exact N. apply H.
Qed.
Theorem labels_spec pp letters ks d : tex_labels pp letters ks = Ok d ->
  (forall k l, dget d k = Some l -> tex_label pp letters k None = Ok l) /\ (forall k, In k (dkeys d) <-> In k ks).
Proof.
  intro E. unfold tex_labels in E. apply labels_loop in E; [|discriminate]. destruct E as [A B]. split; [exact A|]. intro k. specialize (B k). cbn in B.
  split; intro H.
  - destruct (proj1 B); [|easy|auto]. apply dget_some_key in H as [x Hx]. congruence.
  - destruct (dget d k) eqn:G; [now apply dget_key in G|]. destruct (proj2 B); auto.
Qed.

(** ** planets *)
Lemma letter_default n : 1 <= n <= 9 -> forall l, nth_error ["b"; "c"; "d"; "e"; "f"; "g"; "h"; "i"; "j"] (n - 1) = Some l -> String (ascii_of_nat (n + 97)) "" = l.
Proof. intros Hn l. do 10 (destruct n as [|n]; [try lia; cbn; intros [= <-]; reflexivity|]). lia. Qed.
Lemma letter_find (n : nat) (l : string) a b : ~ In n (map fst a) -> find (fun e => Nat.eqb (fst e) n) (a ++ (n, l) :: b)%list = Some (n, l).
Proof.
  induction a as [|[m x] a IH]; intro H; cbn; [now rewrite Nat.eqb_refl|]. destruct (Nat.eqb_spec m n) as [->|N]; [exfalso; apply H; now left|]. apply IH. intro; apply H; now right.
Qed.
Lemma digit_key p n : 1 <= n <= 9 -> exists c, key p n = p ++ String c "" /\ digit_of c = Some n.
Proof. intro Hn. unfold key. do 10 (destruct n as [|n]; [try lia; eexists; split; reflexivity|]). lia. Qed.
Lemma planet_label pp letters n p sym l acc : 1 <= n <= 9 -> In (p, sym) SYMBOLS -> letter_of letters n l ->
  tex_label pp letters (key p n) acc = Ok ("$" ++ sym ++ "_{" ++ l ++ "}$").
Proof.
  intros Hn Hp Hl. destruct (digit_key p n Hn) as (c & -> & D). unfold tex_label. rewrite last_app, butlast_app, D.
  assert (negb (substr_in "gamma" p) && negb (substr_in "jit" p) = true) as -> by (repeat (destruct Hp as [[= <- <-]|Hp]; [reflexivity|]); easy).
  unfold planet_texlabel.
  assert (match dget texdict p with Some t => t | None => p end = sym) as -> by (repeat (destruct Hp as [[= <- <-]|Hp]; [reflexivity|]); easy).
  destruct letters as [d|]; cbn [letter_of] in Hl.
  - destruct Hl as (a & b & -> & NI). rewrite (letter_find _ _ _ _ NI). reflexivity.
  - cbn [bind]. now rewrite (letter_default n Hn l Hl).
Qed.

(** ** instruments *)
Lemma basis_no_prefix b names p c r : In (b, names) FIT_BASES -> (c = "g" \/ c = "j")%char -> p = String c r -> existsb (String.eqb p) names = false.
Proof. intros HF Hc ->. fit_cases HF; destruct Hc as [-> | ->]; reflexivity. Qed.

Ltac split_texdict n := change texdict with (firstn n texdict ++ skipn n texdict)%list; cbn [skipn texdict].
Lemma gamma_label b names letters inst acc : In (b, names) FIT_BASES -> plain_name inst ->
  tex_label names letters ("gamma_" ++ inst) acc = Ok ("$\gamma_{\rm " ++ inst ++ "}$").
Proof.
  intros HF [NE PL]. destruct (last_some _ NE) as [c Hc]. unfold tex_label. rewrite last_app2, butlast_app2, Hc by exact NE.
  change (substr_in "gamma" ("gamma_" ++ butlast inst)) with true. cbn [negb andb].
  assert ((match digit_of c with Some n => (Ok None : res (option (option string))) | None => Ok None end) = Ok None) as -> by (destruct (digit_of c); reflexivity). cbn [bind].
  assert (dmem texdict ("gamma_" ++ inst) = false) as -> by (destruct inst; [easy|reflexivity]).
  rewrite (basis_no_prefix _ _ _ "g" ("amma_" ++ butlast inst) HF) by auto.
  split_texdict 12. rewrite scan_last; [|apply substr_front|cbn; lia|].
  - unfold form. cbn [fst snd]. change (startswith ("gamma_" ++ inst) "gp_") with false. rewrite replace_front by (easy || apply PL; cbn; tauto). reflexivity.
  - intros e' He'. cbn in He'. apply andb_false_intro1.
    destruct He' as [<-|[<-|He']].
    + cbn [fst]. skip. apply substr_false. intros (x & y & E). apply (PL "jit_"); [cbn; tauto|]. exists (x ++ "log"), y. rewrite E, <- app_assoc_s. reflexivity.
    + cbn [fst]. skip. apply substr_false, PL. cbn; tauto.
    + repeat (destruct He' as [<-|He']; [cbn [fst]; skip; apply substr_false, PL; cbn; tauto|]). destruct He'.
Qed.
Lemma jit_label b names letters inst acc : In (b, names) FIT_BASES -> plain_name inst ->
  tex_label names letters ("jit_" ++ inst) acc = Ok ("$\sigma_{\rm " ++ inst ++ "}$").
Proof.
  intros HF [NE PL]. destruct (last_some _ NE) as [c Hc]. unfold tex_label. rewrite last_app2, butlast_app2, Hc by exact NE.
  change (substr_in "jit" ("jit_" ++ butlast inst)) with true. cbn [negb]. rewrite andb_false_r.
  assert ((match digit_of c with Some n => (Ok None : res (option (option string))) | None => Ok None end) = Ok None) as -> by (destruct (digit_of c); reflexivity). cbn [bind].
  assert (dmem texdict ("jit_" ++ inst) = false) as -> by (destruct inst; [easy|reflexivity]).
  rewrite (basis_no_prefix _ _ _ "j" ("it_" ++ butlast inst) HF) by auto.
  split_texdict 14. rewrite scan_last; [|apply substr_front|cbn; lia|].
  - unfold form. cbn [fst snd]. change (startswith ("jit_" ++ inst) "gp_") with false. rewrite replace_front by (easy || apply PL; cbn; tauto). reflexivity.
  - intros e' He'. cbn in He'. apply andb_false_intro1.
    repeat (destruct He' as [<-|He']; [cbn [fst]; skip; apply substr_false, PL; cbn; tauto|]). destruct He'.
Qed.

(** ** hyperparameters of one instrument *)
Lemma occurs_skip m s : substr_in m s = false -> ~ occurs m s.
Proof. intros H O. apply substr_occurs in O. congruence. Qed.
Lemma subst_mid r a rest : forall f, String.length a + 2 + String.length rest < f -> ~ occurs "}" a -> ~ occurs "}_" rest ->
  subst_all f "}_" r (a ++ "}_" ++ rest) = a ++ r ++ rest.
Proof.
  induction a as [|c a IH]; intros f L H1 H2; (destruct f as [|f]; [lia|]).
  - cbn [append]. cbn [subst_all strip_prefix]. change (Ascii.eqb "}" "}") with true. change (Ascii.eqb "_" "_") with true. cbn match. rewrite subst_none; auto; [discriminate|cbn in L; lia].
  - cbn [append subst_all]. assert (strip_prefix "}_" (String c (a ++ String "}" (String "_" rest))) = None) as ->.
    { cbn [strip_prefix]. destruct (Ascii.eqb_spec "}" c) as [<-|]; [|reflexivity]. exfalso. apply H1. exists "", a. reflexivity. }
    f_equal. apply IH; [cbn in L; lia|now apply not_occurs_tail in H1|auto].
Qed.
Lemma replace_mid r a rest : ~ occurs "}" a -> ~ occurs "}_" rest -> replace_by "}_" r (a ++ "}_" ++ rest) = a ++ r ++ rest.
Proof. intros. unfold replace_by. apply subst_mid; auto. rewrite !length_app_s. cbn. lia. Qed.
Lemma close_end inst : ~ occurs "}" inst -> ~ occurs "}_" (inst ++ "}$").
Proof.
  intro H. apply occurs_skip. induction inst as [|c inst IH]; [reflexivity|]. cbn [append]. rewrite substr_skip; [apply IH; now apply not_occurs_tail in H|].
  cbn [String.prefix]. destruct (ascii_dec "}" c) as [<-|]; [|reflexivity]. exfalso. apply H. exists "", inst. reflexivity.
Qed.
Lemma digit_none k c : ~ ends_in_digit k -> last_char k = Some c -> digit_of c = None.
Proof.
  intros H E. destruct (ends_cases k) as [->|(p & c' & ->)]; [discriminate|]. rewrite last_app in E. injection E as ->. unfold digit_of.
  destruct (_ && _) eqn:B; [|reflexivity]. apply andb_true_iff in B as [B1 B2]. apply Nat.leb_le in B1, B2. exfalso. apply H. exists p, c. auto.
Qed.
Lemma gp_label b names letters h u inst acc : In (b, names) FIT_BASES -> In (h, u) HYPERS -> plain_name inst -> ~ occurs "}" inst -> ~ ends_in_digit inst ->
  tex_label names letters (h ++ "_" ++ inst) acc = Ok ("$" ++ u ++ ", \rm " ++ inst ++ "}$").
Proof.
  intros HF HH [NE PL] NB ND. destruct (last_some _ NE) as [c Hc].
  assert (last_char (h ++ "_" ++ inst) = Some c) as LC by (rewrite app_assoc_s, last_app2 by exact NE; exact Hc).
  assert (butlast (h ++ "_" ++ inst) = h ++ "_" ++ butlast inst) as BL by (rewrite app_assoc_s, butlast_app2 by exact NE; now rewrite <- app_assoc_s).
  unfold tex_label. rewrite LC, BL, (digit_none _ _ ND Hc). cbn [bind].
  assert (dmem texdict (h ++ "_" ++ inst) = false) as ->.
  { repeat (destruct HH as [[= <- <-]|HH]; [reflexivity|]). easy. }
  assert (existsb (String.eqb (h ++ "_" ++ butlast inst)) names = false) as ->.
  { repeat (destruct HH as [[= <- <-]|HH]; [eapply basis_no_prefix; [exact HF|left; reflexivity|reflexivity]|]). easy. }
  enough (fold_left (scan_step (h ++ "_" ++ inst)) texdict acc = Some ("$" ++ u ++ ", \rm " ++ inst ++ "}$")) as -> by reflexivity.
  assert (forall e, form (h ++ "_" ++ inst) (h, e ++ "}") = replace_by "}_" ", \rm " (("$" ++ e) ++ "}_" ++ inst ++ "}$")) as FM.
  { intro e. unfold form. cbn [fst snd].
    assert (startswith (h ++ "_" ++ inst) "gp_" = true) as -> by (repeat (destruct HH as [[= <- <-]|HH]; [reflexivity|]); easy).
    rewrite replace_front.
    - rewrite <- !app_assoc_s. reflexivity.
    - repeat (destruct HH as [[= <- <-]|HH]; [discriminate|]). easy.
    - repeat (destruct HH as [[= <- <-]|HH]; [apply occurs_skip; skip; apply substr_false, PL; cbn; tauto|]). easy. }
  assert (forall e, ~ occurs "}" e -> form (h ++ "_" ++ inst) (h, e ++ "}") = "$" ++ e ++ ", \rm " ++ inst ++ "}$") as FM2.
  { intros e He. rewrite FM. rewrite replace_mid; [now rewrite <- app_assoc_s| |now apply close_end]. apply occurs_skip. cbn [append]. rewrite substr_skip by reflexivity. now apply substr_false. }
  Ltac rest PL := intros e' He'; cbn in He'; apply andb_false_intro1; repeat (destruct He' as [<-|He']; [cbn [fst]; skip; apply substr_false, PL; cbn; tauto|]); destruct He'.
  destruct HH as [[= <- <-]|[[= <- <-]|[[= <- <-]|[[= <- <-]|[[= <- <-]|[[= <- <-]|[]]]]]]].
  - split_texdict 17. rewrite scan_last; [|apply substr_front|cbn; lia|rest PL]. f_equal. apply (FM2 "\eta_{1"). apply occurs_skip. reflexivity.
  - split_texdict 18. rewrite scan_last; [|apply substr_front|cbn; lia|rest PL]. f_equal. apply (FM2 "\eta_{2"). apply occurs_skip. reflexivity.
  - split_texdict 19. rewrite scan_last; [|apply substr_front|cbn; lia|rest PL]. f_equal. apply (FM2 "\eta_{3"). apply occurs_skip. reflexivity.
  - split_texdict 20. rewrite scan_last; [|apply substr_front|cbn; lia|rest PL]. f_equal. apply (FM2 "\eta_{4"). apply occurs_skip. reflexivity.
  - split_texdict 21. rewrite scan_last; [|apply substr_front|cbn; lia|rest PL]. f_equal. apply (FM2 "\eta_{2"). apply occurs_skip. reflexivity.
  - split_texdict 25. rewrite scan_last; [|apply substr_front|cbn; lia|rest PL]. f_equal. apply (FM2 "P_{\rm rot"). apply occurs_skip. reflexivity.
Qed.

(** ** braces *)
Lemma depth_app a : forall b d, depth (a ++ b) d = match depth a d with Some d' => depth b d' | None => None end.
Proof.
  induction a as [|c a IH]; intros b d; [reflexivity|]. cbn [append depth]. destruct (Ascii.eqb c "{"); [apply IH|]. destruct (Ascii.eqb c "}"); [|apply IH]. destruct d; [reflexivity|apply IH].
Qed.
Lemma depth_plain s d : no_brace s -> depth s d = Some d.
Proof.
  intros [H1 H2]. induction s as [|c s IH]; [reflexivity|]. cbn [depth]. destruct (Ascii.eqb_spec c "{") as [->|]; [exfalso; apply H1; exists "", s; reflexivity|].
  destruct (Ascii.eqb_spec c "}") as [->|]; [exfalso; apply H2; exists "", s; reflexivity|]. apply IH; eapply not_occurs_tail; eassumption.
Qed.
Lemma balanced_planet p sym l : In (p, sym) SYMBOLS -> no_brace l -> balanced ("$" ++ sym ++ "_{" ++ l ++ "}$").
Proof.
  intros Hp Hl. unfold balanced. rewrite depth_app. change (depth "$" 0) with (Some 0). cbn match. rewrite depth_app. assert (depth sym 0 = Some 0) as -> by (repeat (destruct Hp as [[= <- <-]|Hp]; [reflexivity|]); easy).
  rewrite depth_app. change (depth "_{" 0) with (Some 1). cbn match. rewrite depth_app, (depth_plain l 1 Hl). reflexivity.
Qed.
Lemma balanced_inst pre inst : depth pre 0 = Some 1 -> no_brace inst -> balanced (pre ++ inst ++ "}$").
Proof. intros H Hi. unfold balanced. rewrite depth_app, H. cbn match. rewrite depth_app, (depth_plain _ 1 Hi). reflexivity. Qed.

(** ** different parameters, different labels *)
Lemma planet_inj p p' s s' l l' : In (p, s) SYMBOLS -> In (p', s') SYMBOLS -> "$" ++ s ++ "_{" ++ l ++ "}$" = "$" ++ s' ++ "_{" ++ l' ++ "}$" -> p = p' /\ l = l'.
Proof.
  assert (forall a b, a ++ "}$" = b ++ "}$" -> a = b) as C.
  { intros a b E. assert (butlast (butlast (a ++ "}$")) = butlast (butlast (b ++ "}$"))) as X by now rewrite E.
    change "}$" with ("}" ++ "$") in X. rewrite !app_assoc_s, !butlast_app in X. exact X. }
  intros H H'. repeat (destruct H as [[= <- <-]|H]; [repeat (destruct H' as [[= <- <-]|H']; [cbn; intro E; try discriminate E; injection E as E; auto|]); destruct H'|]). destruct H.
Qed.
Lemma letter_inj n n' l : 1 <= n <= 9 -> 1 <= n' <= 9 -> letter_of None n l -> letter_of None n' l -> n = n'.
Proof.
  cbn. intros Hn Hn' E E'. pose proof (letter_default _ Hn _ E) as A. pose proof (letter_default _ Hn' _ E') as B. rewrite <- B in A.
  assert (ascii_of_nat (n + 97) = ascii_of_nat (n' + 97)) as X by congruence. apply (f_equal nat_of_ascii) in X. rewrite !nat_ascii_embedding in X by lia. lia.
Qed.
