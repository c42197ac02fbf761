(** C73: proofs. *)
From Coq Require Import Reals String Ascii Arith Bool Lia Lra List.
From Verif Require Import Py PyFloat PyFacts Params ParamsProofs ParamsSpec Basis BasisThms VectorProofs Likelihood DecorrSpec DecorrProofs ParTable ParTableProofs
  Prior PriorSpec PriorProofs PriorThms TexLabels TexSpec TexProofs TexThms PriorTab PriorTabSpec.
Import ListNotations.
Open Scope string_scope.

(** ** labels *)
Lemma default_fit : In ("per tc secosw sesinw logk", default_names) FIT_BASES.
Proof. cbn. tauto. Qed.
Lemma symbol_label s sym acc : symbol_of s sym -> tex_label default_names None s acc = Ok ("$" ++ sym ++ "$").
Proof.
  intros [(q & n & y & l & -> & Hn & Hq & Hl & ->)|[(inst & PN & _ & [[-> ->]|[-> ->]])|[[-> ->]|[-> ->]]]].
  - rewrite (planet_label _ _ _ _ _ _ _ Hn Hq Hl). now rewrite <- !app_assoc_s.
  - rewrite (gamma_label _ _ _ _ _ default_fit PN). now rewrite <- !app_assoc_s.
  - rewrite (jit_label _ _ _ _ _ default_fit PN). now rewrite <- !app_assoc_s.
  - reflexivity.
  - reflexivity.
Qed.
Lemma one_label s sym : symbol_of s sym -> label_of s = Ok ("$" ++ sym ++ "$").
Proof.
  intro H. unfold label_of, labels_of, tex_labels. cbn [for_each dget]. rewrite (symbol_label _ _ _ H). cbn [bind for_each].
  unfold dget_res. now rewrite dget_dset_same.
Qed.
Lemma char_occurs_app a b c : occurs (String c "") (a ++ b) -> occurs (String c "") a \/ occurs (String c "") b.
Proof.
  intros (p & q & E). revert p E. induction a as [|x a IH]; intros p E; cbn in E; [right; now exists p, q|]. destruct p as [|y p]; cbn in E.
  - injection E as -> _. left. exists "", a. reflexivity.
  - injection E as -> E. destruct (IH _ E) as [(u & v & ->)|H]; [left; exists (String y u), v; reflexivity|now right].
Qed.
Lemma no_app a b c : ~ occurs (String c "") a -> ~ occurs (String c "") b -> ~ occurs (String c "") (a ++ b).
Proof. intros Ha Hb H. apply char_occurs_app in H. tauto. Qed.
Lemma letters_plain n l : letter_of None n l -> ~ occurs "$" l.
Proof. cbn [letter_of]. intro H. apply nth_error_In in H. cbn in H. repeat (destruct H as [<-|H]; [apply occurs_skip; reflexivity|]). easy. Qed.
Lemma symbol_no_dollar s sym : symbol_of s sym -> ~ occurs "$" sym.
Proof.
  intros [(q & n & y & l & -> & Hn & Hq & Hl & ->)|[(inst & PN & ND & [[-> ->]|[-> ->]])|[[-> ->]|[-> ->]]]].
  - repeat apply no_app; try (apply occurs_skip; reflexivity); [|now apply letters_plain in Hl]. apply occurs_skip. repeat (destruct Hq as [[= <- <-]|Hq]; [reflexivity|]). easy.
  - repeat apply no_app; try (apply occurs_skip; reflexivity); auto.
  - repeat apply no_app; try (apply occurs_skip; reflexivity); auto.
  - apply occurs_skip; reflexivity.
  - apply occurs_skip; reflexivity.
Qed.
Lemma subst_dollar a : forall f, (String.length a + 1 < f)%nat -> ~ occurs "$" a -> subst_all f "$" "" (a ++ "$") = a.
Proof.
  induction a as [|c a IH]; intros f L H; (destruct f as [|f]; [lia|]).
  - cbn [append subst_all strip_prefix]. change (Ascii.eqb "$" "$") with true. cbv iota. destruct f; reflexivity.
  - cbn [append subst_all]. assert (strip_prefix "$" (String c (a ++ "$")) = None) as ->.
    { cbn [strip_prefix]. destruct (Ascii.eqb_spec "$" c) as [<-|]; [|reflexivity]. exfalso. apply H. exists "", a. reflexivity. }
    f_equal. apply IH; [cbn in L; lia|now apply not_occurs_tail in H].
Qed.
Lemma unmath sym : ~ occurs "$" sym -> no_dollar ("$" ++ sym ++ "$") = sym.
Proof.
  intro H. unfold no_dollar, replace_by. cbn [append subst_all strip_prefix]. change (Ascii.eqb "$" "$") with true. cbv iota. cbn [append].
  apply subst_dollar; [|exact H]. cbn [String.length]. rewrite length_app_s. cbn. lia.
Qed.

Section Show.
Variable show : ext -> string.
Notation num := (num show).
Notation prior_str := (prior_str show).

(** ** one parameter *)
Theorem hard_str text s sym a b : symbol_of s sym -> exists row, prior_str text (PHard s a b) = Ok row /\ names_interval row "Bounded prior: " (show a) sym (show b).
Proof.
  intro H. eexists. cbn [PriorTab.prior_str]. rewrite (one_label _ _ H). cbn [bind or_repr]. split; [reflexivity|]. rewrite unmath by now apply symbol_no_dollar in H. reflexivity.
Qed.
Theorem jeffreys_str text s sym a b n : symbol_of s sym -> exists row, prior_str text (PJeffreys s a b n) = Ok row /\ names_interval row "Jeffrey's prior: " (num a) sym (num b).
Proof.
  intro H. eexists. cbn [PriorTab.prior_str]. rewrite (one_label _ _ H). cbn [bind or_repr]. split; [reflexivity|]. rewrite unmath by now apply symbol_no_dollar in H. reflexivity.
Qed.
Theorem mod_jeffreys_str text s sym a b k n : symbol_of s sym ->
  exists row, prior_str text (PModJeffreys s a b k n) = Ok row /\ names_interval row ("Modified Jeffrey's prior: knee = " ++ num k ++ "; ") (num a) sym (num b).
Proof.
  intro H. eexists. cbn [PriorTab.prior_str]. rewrite (one_label _ _ H). cbn [bind or_repr]. split; [reflexivity|]. rewrite unmath by now apply symbol_no_dollar in H.
  unfold names_interval. rewrite <- !app_assoc_s. reflexivity.
Qed.
Theorem gauss_str text s sym mu sigma : symbol_of s sym ->
  prior_str text (PGaussian s mu sigma) = Ok ("Gaussian prior on $" ++ sym ++ "$: $" ++ num mu ++ " \pm " ++ num sigma ++ "$ \\").
Proof.
  intro H. cbn [PriorTab.prior_str]. rewrite (one_label _ _ H). cbn [bind or_repr]. rewrite <- !app_assoc_s. reflexivity.
Qed.

(** ** with what the prior does *)
Theorem hard_thm text s sym a b : symbol_of s sym -> (a < b)%R -> exists row d, prior_str text (PHard s (Fin a) (Fin b)) = Ok row /\
  names_interval row "Bounded prior: " (num a) sym (num b) /\ log_density_of (PHard s (Fin a) (Fin b)) s d /\ proper_density d (fun x => a < x < b)%R.
Proof. intros H L. destruct (hard_str text s sym (Fin a) (Fin b) H) as (row & E & N). destruct (hard_density s a b L) as (d & D). exists row, d. tauto. Qed.
Theorem jeffreys_thm text s sym a b : symbol_of s sym -> (0 < a)%R -> (a < b)%R -> exists p row d, jeffreys_init s a b = Ok p /\ prior_str text p = Ok row /\
  names_interval row "Jeffrey's prior: " (num a) sym (num b) /\ log_density_of p s d /\ proper_density d (fun x => a <= x <= b)%R.
Proof.
  intros H A L. destruct (jeffreys_density s a b A L) as (p & d & E & D). pose proof E as E0. unfold jeffreys_init in E. destruct (reqb a 0); [discriminate|]. injection E as <-.
  match type of D with log_density_of (PJeffreys s a b ?n) _ _ /\ _ => destruct (jeffreys_str text s sym a b n H) as (row & E & N); exists (PJeffreys s a b n), row, d end.
  tauto.
Qed.
Theorem mod_jeffreys_thm text s sym a b k : symbol_of s sym -> (k < a)%R -> (a < b)%R -> exists p row d, mod_jeffreys_init s a b k = Ok p /\ prior_str text p = Ok row /\
  names_interval row ("Modified Jeffrey's prior: knee = " ++ num k ++ "; ") (num a) sym (num b) /\ log_density_of p s d /\ proper_density d (fun x => a <= x <= b)%R.
Proof.
  intros H A L. destruct (mod_jeffreys_density s a b k A L) as (p & d & E & D). pose proof E as E0. unfold mod_jeffreys_init in E. destruct (reqb (a - k) 0); [discriminate|].
  destruct (rltb k a); [|discriminate]. injection E as <-.
  match type of D with log_density_of (PModJeffreys s a b k ?n) _ _ /\ _ => destruct (mod_jeffreys_str text s sym a b k n H) as (row & E & N); exists (PModJeffreys s a b k n), row, d end.
  tauto.
Qed.
Theorem gauss_thm text s sym mu sigma : symbol_of s sym -> (0 < sigma)%R -> exists d,
  prior_str text (PGaussian s mu sigma) = Ok ("Gaussian prior on $" ++ sym ++ "$: $" ++ num mu ++ " \pm " ++ num sigma ++ "$ \\") /\
  log_density_of (PGaussian s mu sigma) s d /\ forall x, edens (d x) = (/ sqrt (2 * PI * sigma ^ 2) * exp (- ((x - mu) ^ 2 / (2 * sigma ^ 2))))%R.
Proof.
  intros H S. destruct (gauss_density s mu sigma S) as (d & D & _). exists d. split; [now apply gauss_str|]. split; [exact D|]. now apply gauss_prior_shape with s.
Qed.

(** ** eccentricities *)
Lemma drop5_end s : drop5 (s ++ "\\\\" ++ nl) = s.
Proof.
  unfold drop5, nl. change ("\\\\" ++ String (ascii_of_nat 10) "") with (((("\" ++ "\") ++ "\") ++ "\") ++ String (ascii_of_nat 10) "").
  rewrite !app_assoc_s, !butlast_app. reflexivity.
Qed.
Definition ecc_line (n : nat) (u : R) (line : string) : Prop := exists l, letter_of None n l /\ line = "$e_{" ++ l ++ "}$ constrained to be $<" ++ num u ++ "$ ".
Lemma ecc_tex : exists d, ecc_labels = Ok d /\ (forall n l, (1 <= n <= 9)%nat -> letter_of None n l -> dget d (key "e" n) = Some ("$e_{" ++ l ++ "}$")) /\
  (forall n, (n < 1 \/ 9 < n)%nat -> dget d (key "e" n) = None).
Proof.
  assert (exists d, ecc_labels = Ok d) as [d E] by (eexists; vm_compute; reflexivity). exists d. split; [exact E|]. split.
  - intros n l Hn Hl. destruct (planets_thm _ _ _ _ n "e" "e" l E) as [H _]; auto.
    + apply in_flat_map. exists n. split; [apply in_seq; lia|]. cbn. tauto.
    + cbn. tauto.
  - intros n Hn. destruct (dget d (key "e" n)) as [x|] eqn:G; [|reflexivity]. exfalso. apply dget_key in G. apply (proj2 (labels_spec _ _ _ _ E)) in G.
    apply in_flat_map in G as (m & Hm & G). apply in_seq in Hm. apply in_map_iff in G as (p & G & Hp).
    assert (p = "e" /\ m = n) as [_ ->]; [|lia]. cbn in Hp.
    repeat (destruct Hp as [<-|Hp]; [apply key_inj in G; [destruct G; auto; discriminate|reflexivity..]|]). easy.
Qed.
Lemma letter_ex n : (1 <= n <= 9)%nat -> exists l, letter_of None n l.
Proof. intro Hn. cbn. destruct (nth_error ["b"; "c"; "d"; "e"; "f"; "g"; "h"; "i"; "j"] (n - 1)) eqn:G; [eauto|]. apply nth_error_None in G. cbn in G. lia. Qed.
Lemma ecc_loop_lines d : (forall n l, (1 <= n <= 9)%nat -> letter_of None n l -> dget d (key "e" n) = Some ("$e_{" ++ l ++ "}$")) ->
  forall pl lims msg, (forall n, In n pl -> 1 <= n <= 9)%nat -> length lims = length pl -> pl <> [] ->
  exists ls, ecc_lines show d pl lims msg = Ok (msg ++ lines ls ++ "\\\\" ++ nl) /\ length ls = length pl /\
    forall i n u line, nth_error pl i = Some n -> nth_error lims i = Some u -> nth_error ls i = Some line -> ecc_line n u line.
Proof.
  intro HD. induction pl as [|n pl IH]; intros lims msg Hn HL NE; [easy|]. destruct lims as [|u lims]; [discriminate|].
  destruct (letter_ex n) as [l Hl]; [apply Hn; now left|]. cbn [ecc_lines]. unfold dget_res. rewrite (HD n l) by (auto; apply Hn; now left). cbn [bind].
  set (line := "$e_{" ++ l ++ "}$ constrained to be $<" ++ num u ++ "$ ").
  assert (msg ++ ("$e_{" ++ l ++ "}$") ++ " constrained to be $<" ++ num u ++ "$ \\\\" ++ nl = msg ++ line ++ "\\\\" ++ nl) as EM.
  { unfold line. rewrite <- !app_assoc_s. reflexivity. }
  rewrite EM. destruct pl as [|m pl].
  - exists [line]. destruct lims; [|discriminate]. cbn [ecc_lines lines]. split; [reflexivity|]. split; [reflexivity|].
    intros [|i] n' u' line' H1 H2 H3; cbn in *; [|destruct i; discriminate]. injection H1 as <-. injection H2 as <-. injection H3 as <-. exists l. auto.
  - destruct (IH lims (msg ++ line ++ "\\\\" ++ nl)) as (ls & E & L & F); [intros; apply Hn; now right|cbn in *; lia|discriminate|].
    exists (line :: ls). rewrite E. split.
    + f_equal. destruct ls as [|x ls]; [discriminate|]. change (lines (line :: x :: ls)) with (line ++ "\\\\" ++ nl ++ lines (x :: ls)). rewrite <- !app_assoc_s. reflexivity.
    + split; [cbn in *; lia|]. intros [|i] n' u' line' H1 H2 H3; cbn in *; [|eapply F; eauto]. injection H1 as <-. injection H2 as <-. injection H3 as <-. exists l. auto.
Qed.
Theorem ecc_thm text pl lims : (forall n, In n pl -> 1 <= n <= 9)%nat -> length lims = length pl -> exists ls,
  prior_str text (PEcc pl lims) = Ok (lines ls) /\ length ls = length pl /\
  forall i n u line, nth_error pl i = Some n -> nth_error lims i = Some u -> nth_error ls i = Some line ->
    exists l, letter_of None n l /\ line = "$e_{" ++ l ++ "}$ constrained to be $<" ++ num u ++ "$ ".
Proof.
  intros Hn HL. destruct ecc_tex as (d & E & HD & _). cbn [PriorTab.prior_str]. rewrite E. cbn [bind]. destruct pl as [|n pl].
  - exists []. destruct lims; [|discriminate HL]. cbn [ecc_lines bind]. split; [reflexivity|]. split; [reflexivity|]. intros [|i] n u line H; discriminate H.
  - destruct (ecc_loop_lines d HD (n :: pl) lims "" Hn HL) as (ls & E2 & L & F); [discriminate|]. exists ls. rewrite E2. cbn [bind]. cbn [append]. rewrite drop5_end. auto.
Qed.
Theorem ecc_fails text pl lims n : In n pl -> (n < 1 \/ 9 < n)%nat -> length lims = length pl -> exists k, prior_str text (PEcc pl lims) = Err (KeyError k).
Proof.
  intros Hi Hn HL. destruct ecc_tex as (d & E & _ & HN). cbn [PriorTab.prior_str]. rewrite E. cbn [bind].
  enough (forall msg, exists k, ecc_lines show d pl lims msg = Err (KeyError k)) as H by (destruct (H "") as [k ->]; exists k; reflexivity).
  revert lims HL. induction pl as [|m pl IH]; intros lims HL msg; [destruct Hi|]. destruct lims as [|u lims]; [discriminate|]. cbn [ecc_lines]. unfold dget_res.
  destruct (dget d (key "e" m)) as [x|] eqn:G; [|cbn [bind]; eauto]. cbn [bind]. destruct Hi as [->|Hi]; [rewrite HN in G by exact Hn; discriminate|]. apply IH; auto.
Qed.

(** ** numerical priors *)
Lemma dset_new {V} (d : dict V) k v : dmem d k = false -> dset d k v = (d ++ [(k, v)])%list.
Proof.
  unfold dmem. induction d as [|[k' v'] d IH]; [reflexivity|]. cbn [dget dset]. destruct (String.eqb k k'); [discriminate|]. intro H. cbn. now rewrite IH.
Qed.
Lemma labels_order ks : forall syms d0, Forall2 symbol_of ks syms -> NoDup ks -> (forall k, In k ks -> dmem d0 k = false) ->
  for_each ks (fun d k => do l <- tex_label default_names None k (dget d k); Ok (dset d k l)) d0 = Ok (app d0 (combine ks (map (fun y => "$" ++ y ++ "$") syms))).
Proof.
  induction ks as [|k ks IH]; intros syms d0 F ND HM; inversion F as [|? y ? ys H1 H2]; subst; cbn [for_each combine map]; [now rewrite app_nil_r|].
  rewrite (symbol_label _ _ _ H1). cbn [bind]. rewrite dset_new by (apply HM; now left). inversion ND as [|? ? N1 N2]; subst. rewrite (IH ys); auto.
  - now rewrite <- app_assoc.
  - intros k' Hk'. rewrite <- dset_new by (apply HM; now left). unfold dmem. rewrite dget_dset_other by (intros ->; contradiction). apply (HM k'). now right.
Qed.
Lemma join_enum l : l <> [] -> join_and l = Ok (enumeration l).
Proof.
  induction l as [|a l IH]; intro H; [easy|]. destruct l as [|b l]; [reflexivity|]. change (join_and (a :: b :: l)) with (do s <- join_and (b :: l); Ok (a ++ ", " ++ s)).
  rewrite IH by discriminate. reflexivity.
Qed.
Theorem numerical_thm text pl f g syms : Forall2 symbol_of pl syms -> NoDup pl -> pl <> [] ->
  prior_str text (PNumerical pl f g) = Ok ("Numerical prior on " ++ named (map (fun y => "$" ++ y ++ "$") syms) ++ ", defined using Gaussian kernel density estimation.").
Proof.
  intros F ND NE. cbn [PriorTab.prior_str]. unfold labels_of, tex_labels. rewrite (labels_order _ _ [] F ND) by reflexivity. cbn [bind app].
  assert (length pl = length syms) as L by (clear - F; induction F; cbn; congruence).
  assert (map snd (combine pl (map (fun y => "$" ++ y ++ "$") syms)) = map (fun y => "$" ++ y ++ "$") syms) as ->.
  { clear - L. revert syms L. induction pl as [|k pl IH]; intros [|y syms] L; try discriminate; [reflexivity|]. cbn. f_equal. apply IH. now injection L. }
  assert (length (map (fun y => "$" ++ y ++ "$") syms) = length pl) as L' by (rewrite map_length; auto). revert L'. generalize (map (fun y => "$" ++ y ++ "$") syms) as t. intros t L'.
  unfold name_list. rewrite <- L'. destruct t as [|a [|b [|c t]]]; [destruct pl; [easy|discriminate]|reflexivity|reflexivity|].
  cbn [length]. rewrite Nat.eqb_refl. rewrite join_enum by discriminate. reflexivity.
Qed.

(** ** rows *)
Lemma endswith_spec s t : endswith s t = true <-> exists p, s = p ++ t.
Proof.
  induction s as [|c s IH]; cbn [endswith]; rewrite orb_true_iff, String.eqb_eq.
  - split; [intros [<-|]; [exists ""; reflexivity|discriminate]|]. intros ([|x p] & E); [now left|discriminate].
  - rewrite IH. split.
    + intros [<-|(p & ->)]; [exists ""; reflexivity|exists (String c p); reflexivity].
    + intros ([|x p] & E); [now left|]. right. injection E as _ E. now exists p.
Qed.
Lemma one_row r : finished r (if endswith r "\\" then r else r ++ "\\").
Proof.
  destruct (endswith r "\\") eqn:E.
  - apply endswith_spec in E. unfold finished. tauto.
  - assert (~ exists t, r = t ++ "\\") as N by (rewrite <- endswith_spec; congruence). unfold finished. split; [eauto|]. tauto.
Qed.
Theorem rows_thm pp letters keys d priors ds : tex_labels pp letters keys = Ok d -> Forall2 (fun p r => prior_str (snd p) (fst p) = Ok r) priors ds ->
  exists rows, tab_prior_summary show pp letters keys priors = Ok rows /\ Forall2 finished ds rows.
Proof.
  intros E F. unfold tab_prior_summary. rewrite E. cbn [bind]. induction F as [|[p t] r priors ds H _ (rows & ER & FR)]; [exists []; split; [reflexivity|constructor]|].
  cbn [map_res]. cbn [fst snd] in H. rewrite H. cbn [bind]. rewrite ER. cbn [bind]. eexists. split; [reflexivity|]. constructor; [apply one_row|exact FR].
Qed.
Lemma row_fails pp letters keys priors p t e : In (p, t) priors -> prior_str t p = Err e -> exists e', tab_prior_summary show pp letters keys priors = Err e'.
Proof.
  intros Hi H. unfold tab_prior_summary. destruct (tex_labels pp letters keys) as [d|e0]; [|eexists; reflexivity]. cbn [bind].
  induction priors as [|[p' t'] priors IH]; [destruct Hi|]. cbn [map_res]. destruct Hi as [[= -> ->]|Hi].
  - rewrite H. eexists. reflexivity.
  - destruct (prior_str t' p') as [r|e1]; [|eexists; reflexivity]. cbn [bind]. destruct (IH Hi) as [e' ->]. eexists. reflexivity.
Qed.
Theorem ecc_table_fails pp letters keys priors pl lims t n : In (PEcc pl lims, t) priors -> In n pl -> (9 < n)%nat -> length lims = length pl ->
  exists e, tab_prior_summary show pp letters keys priors = Err e.
Proof. intros Hi Hn L HL. destruct (ecc_fails t pl lims n Hn (or_intror L) HL) as [k E]. eapply row_fails; eauto. Qed.
Theorem letters_differ pp letters keys d q y n l l' mu sigma text : tex_labels pp (Some letters) keys = Ok d -> In (key q n) keys -> (1 <= n <= 9)%nat -> In (q, y) SYMBOLS ->
  letter_of (Some letters) n l -> letter_of None n l' ->
  dget d (key q n) = Some ("$" ++ y ++ "_{" ++ l ++ "}$") /\
  prior_str text (PGaussian (key q n) mu sigma) = Ok ("Gaussian prior on $" ++ y ++ "_{" ++ l' ++ "}$: $" ++ num mu ++ " \pm " ++ num sigma ++ "$ \\").
Proof.
  intros E Hk Hn Hq L1 L2. split; [now apply (planets_thm _ _ _ _ _ _ _ _ E Hk Hn Hq L1)|].
  rewrite (gauss_str text (key q n) (y ++ "_{" ++ l' ++ "}")).
  - now rewrite <- !app_assoc_s.
  - left. exists q, n, y, l'. auto.
Qed.
Theorem eclipse_str text n ts err : prior_str text (PSecEcl n ts err) = Ok ("secondary eclipse prior: $" ++ num ts ++ " \pm " ++ num err ++ "$ ").
Proof.
  cbn [PriorTab.prior_str]. f_equal.
  replace ("secondary eclipse prior: $" ++ num ts ++ " \pm " ++ num err ++ "$ \\\\" ++ nl) with (("secondary eclipse prior: $" ++ num ts ++ " \pm " ++ num err ++ "$ ") ++ "\\\\" ++ nl); [apply drop5_end|].
  now rewrite <- !app_assoc_s.
Qed.
Theorem no_letters_needed text s mu sigma : s <> "" -> exists row sym, prior_str text (PGaussian s mu sigma) = Ok ("Gaussian prior on " ++ sym ++ ": " ++ row).
Proof.
  intro NE. destruct (success_spec default_names None [s]) as (d & E & K); [intros k [<-|[]]; exact NE|auto|].
  cbn [PriorTab.prior_str]. unfold label_of, labels_of. rewrite E. cbn [bind]. assert (In s (dkeys d)) as I by (apply K; now left). apply dget_some_key in I as [x Hx].
  unfold dget_res. rewrite Hx. cbn [bind or_repr]. eexists. exists x. reflexivity.
Qed.
End Show.
