(** Proofs about several tables in one run (C81). *)
From Coq Require Import ZArith Reals String Ascii Arith Bool Lia List.
From Verif Require Import Py PyFacts PyFloat Params Basis Likelihood Stats PostProc ParTable ParTableSpec ParTableProofs ParTableThms DerivTab DerivTabSpec DerivTabProofs DerivTabThms CompTable RvTab Pipeline TabRun TabRunSpec.
Import ListNotations.
Open Scope R_scope.
Open Scope string_scope.

(** ** names *)
Lemma plain_first c r : ~ In c ["m"; "r"; "a"; "_"]%char -> ~ derived_name (String c r).
Proof. intros N (p & n & [<-|[<-|[<-|[]]]] & E); unfold key in E; injection E as -> _; apply N; cbn; tauto. Qed.
Lemma empty_not_derived : ~ derived_name "".
Proof. intros (p & n & [<-|[<-|[<-|[]]]] & E); discriminate. Qed.
Lemma plain_not p : plain p -> ~ derived_name p.
Proof. intros (c & r & -> & N). now apply plain_first. Qed.
Lemma plain_key p n : plain p -> ~ derived_name (key p n).
Proof. intros (c & r & -> & N). unfold key. cbn [append]. now apply plain_first. Qed.
Lemma plain_butlast p n : plain p -> ~ derived_name (butlast (key p n)).
Proof. intros (c & r & -> & N). unfold key. cbn [append]. cbn [butlast]. destruct (r ++ str_nat n); [apply empty_not_derived|now apply plain_first]. Qed.
Lemma plain_replace p s : plain p -> (exists j, s = "_" ++ j) -> ~ derived_name (replace_all s p).
Proof.
  intros (c & r & -> & N) [j ->]. unfold replace_all. cbn [String.length remove_all append strip_prefix]. destruct (Ascii.eqb_spec "_" c) as [<-|_]; [destruct N; cbn; tauto|]. now apply plain_first.
Qed.
Lemma in_insert_desc x l p : In p (insert_desc x l) -> p = x \/ In p l.
Proof. induction l as [|y l IH]; cbn [insert_desc]; [intros [->|[]]; auto|]. destruct (String.compare x y); cbn; intuition. Qed.
Lemma in_sort_desc l p : In p (sort_desc l) -> In p l.
Proof. induction l as [|y l IH]; cbn [sort_desc fold_right]; [auto|]. intro H. apply in_insert_desc in H as [->|H]; [now left|right; auto]. Qed.
Lemma in_extra extra names p : In p (extra_names extra names) -> In p extra \/ In p names \/ In p order.
Proof.
  unfold extra_names. intro H. apply in_app_or in H as [H|H]; [|apply filter_In in H; tauto]. apply in_flat_map in H as (o & Ho & H). destruct (filter (substr_in o) extra) as [|q l] eqn:F.
  - destruct H as [<-|[]]. auto.
  - apply in_sort_desc in H. rewrite <- F in H. apply filter_In in H. tauto.
Qed.
Lemma order_ok p : In p order -> one_word p /\ plain p.
Proof.
  assert (forall q c r, q = String c r -> ~ In c ["m"; "r"; "a"; "_"]%char -> plain q) as K by (intros; eexists _, _; eauto).
  intros [<-|[<-|[<-|[<-|[]]]]]; (split; [apply one_word_dec; reflexivity|eapply K; [reflexivity|cbn; intuition discriminate]]).
Qed.

(** ** what a table of parameters depends on *)
Record same (s s0 : tex) : Prop := mkSame { same_chains : same_off (x_chains s) (x_chains s0); same_quant : same_off (x_quant s) (x_quant s0); same_latex : same_off (x_latex s) (x_latex s0);
  same_maxp : same_off (x_maxp s) (x_maxp s0); same_units : same_off (x_units s) (x_units s0) }.
Lemma same_refl s : same s s.
Proof. split; intros k _; reflexivity. Qed.
Lemma for_each_ext {A S} (f g : S -> A -> res S) l : (forall s x, In x l -> f s x = g s x) -> forall s, for_each l f s = for_each l g s.
Proof. induction l as [|x l IH]; intros H s; [reflexivity|]. cbn [for_each]. rewrite (H s x) by now left. destruct (g s x); cbn [bind]; [|reflexivity]. apply IH. intros; apply H; now right. Qed.

Section Same.
Variables (T : Type) (geterr : list R -> res T) (of_quantiles : R * R * R -> T) (show : T -> R -> option (R * R * R) -> res string).
Variables (suffixes : list string).
Hypothesis SU : forall s, In s suffixes -> exists j, s = "_" ++ j.
Variables (s s0 : tex).
Hypothesis S : same s s0.

Lemma unit_same p n : plain p -> unit_of (x_units s) suffixes p (key p n) = unit_of (x_units s0) suffixes p (key p n).
Proof.
  intro P. destruct S as [_ _ _ _ U]. assert (forall k, ~ derived_name k -> get_text (x_units s) k = get_text (x_units s0) k) as G by (intros k N; unfold get_text; now rewrite (U k N)).
  unfold unit_of. rewrite (G p) by now apply plain_not. rewrite (G (key p n)) by now apply plain_key. unfold dmem. rewrite (U (key p n)) by now apply plain_key.
  destruct (find _ suffixes) as [z|] eqn:F; [|reflexivity]. rewrite (G (replace_all z p)); [reflexivity|]. apply plain_replace; [exact P|]. apply SU. now apply find_some in F.
Qed.
Lemma row_same p n unit : plain p ->
  row_of (list R) (R * R * R) T R (x_chains s) (x_quant s) (x_maxp s) (x_latex s) geterr of_quantiles show (key p n) unit =
  row_of (list R) (R * R * R) T R (x_chains s0) (x_quant s0) (x_maxp s0) (x_latex s0) geterr of_quantiles show (key p n) unit.
Proof.
  intro P. destruct S as [C Q L M U]. unfold row_of, dmem. rewrite (Q (key p n)) by now apply plain_key.
  set (k := if match dget (x_quant s0) (key p n) with Some _ => true | None => false end then key p n else butlast (key p n)).
  assert (~ derived_name k) as N. { unfold k. destruct (dget _ _); [now apply plain_key|now apply plain_butlast]. }
  unfold dget_res. rewrite (C k N), (Q k N), (L k N), (M k N). reflexivity.
Qed.
Lemma rows_same names loops : (forall p, In p names -> plain p) ->
  ParTable.table_rows (list R) (R * R * R) T R (x_chains s) (x_quant s) (x_maxp s) (x_latex s) (x_units s) suffixes geterr of_quantiles show names loops =
  ParTable.table_rows (list R) (R * R * R) T R (x_chains s0) (x_quant s0) (x_maxp s0) (x_latex s0) (x_units s0) suffixes geterr of_quantiles show names loops.
Proof.
  intro P. unfold ParTable.table_rows. apply for_each_ext. intros rows [p n] H. apply in_flat_map in H as (n' & _ & H). apply in_map_iff in H as (p' & E & H). injection E as -> ->.
  unfold add_row. cbn [fst snd]. rewrite unit_same by auto. now rewrite row_same by auto.
Qed.
Lemma params_same fb nplanets extra names : plain_names fb extra names suffixes ->
  params_tab T geterr of_quantiles show nplanets suffixes fb extra names s = params_tab T geterr of_quantiles show nplanets suffixes fb extra names s0.
Proof.
  intros (P1 & P2 & _). unfold params_tab, tab_params. rewrite (rows_same (split fb)) by exact P1.
  rewrite (rows_same (split print_basis)).
  2:{ intros p [<-|[<-|[<-|[<-|[<-|[<-|[]]]]]]]; (eexists _, _; split; [reflexivity|cbn; intuition discriminate]). }
  rewrite (rows_same (split (String.concat " " (extra_names extra names)))); [reflexivity|].
  assert (forall p, In p (extra_names extra names) -> one_word p /\ plain p) as K. { intros p H. apply in_extra in H as [H|[H|H]]; [apply P2; auto|apply P2; auto|now apply order_ok]. }
  intros p H. rewrite split_concat in H by (intros q Hq; now apply K). now apply K.
Qed.
End Same.

(** ** one table after another *)
Lemma ttext_inj t t' : ttext t = ttext t' -> t = t'.
Proof. destruct t, t'; cbn; congruence. Qed.

Section Run.
Variables (T : Type) (setorder : list string -> list string).
Variables (geterr : list R -> res T) (of_quantiles : R * R * R -> T) (show : T -> R -> option (R * R * R) -> res string).
Variables (two_digits : ext -> string).
Variables (nplanets : nat) (letters : option (list (nat * string))) (nulls suffixes : list string) (fb : string) (extra names : list string).
Variables (priors : res (list string)) (x y yerr : list R) (telvec : list string) (minafactor maxarchange maxgr mintz : option ext).
Variables (has_run : bool) (ic : option (res (list stats))) (again : res (dict (list R) * dict string)).
Notation one := (one_tab T setorder geterr of_quantiles show two_digits nplanets letters nulls suffixes fb extra names priors x y yerr telvec minafactor maxarchange maxgr mintz has_run ic again).
Notation run := (tables_run T setorder geterr of_quantiles show two_digits nplanets letters nulls suffixes fb extra names priors x y yerr telvec minafactor maxarchange maxgr mintz has_run ic again).
Notation dtab := (derived_tab T setorder geterr of_quantiles show nplanets letters nulls suffixes).
Hypothesis PN : plain_names fb extra names suffixes.

Lemma quantiles_same c c0 : same_off c c0 -> same_off (quantiles c) (quantiles c0).
Proof. intros H k N. rewrite !quantiles_get. now rewrite (H k N). Qed.
Lemma same_trans {A} (a b c : dict A) : same_off a b -> same_off b c -> same_off a c.
Proof. intros H1 H2 k N. rewrite (H1 k N). auto. Qed.
Lemma labels_derived dp chains : derived_plot nplanets letters nulls chains = Ok dp -> forall k, In k (map d_label (snd dp)) -> derived_name k.
Proof. intros E k H. apply in_map_iff in H as (e & <- & H). destruct (plot_from _ _ _ _ _ E e H) as (p & i & col & l & Hp & _ & _ & _ & _ & -> & _). exists p, i. auto. Qed.
Lemma update_same {A} (d : dict A) dp chains (f : dlabel -> A) : derived_plot nplanets letters nulls chains = Ok dp -> same_off (dupdate d (map (fun l => (d_label l, f l)) (snd dp))) d.
Proof.
  intros E k N. rewrite dget_dupdate_notin; [reflexivity|]. unfold dkeys. rewrite map_map. cbn [fst]. intro H. apply N. eapply labels_derived; eauto.
Qed.
Lemma best_same chains ls (d d' : dict R) : (forall k, In k ls -> derived_name k) ->
  for_each ls (fun d par => do lp <- dget_res chains "lnprobability"; do i <- idxmax lp; do col <- dget_res chains par; Ok (dset d par (nth i col 0))) d = Ok d' -> same_off d' d.
Proof.
  set (f := fun _ _ => _). revert d. induction ls as [|k0 ls IH]; intros d H E; [injection E as <-; intros k _; reflexivity|]. cbn [for_each] in E.
  destruct (f d k0) as [d1|] eqn:F; [|discriminate]. cbn [bind] in E. intros k N. rewrite (IH _ (fun k Hk => H k (or_intror Hk)) E k N). unfold f in F.
  destruct (dget_res chains "lnprobability") as [lp|]; [|discriminate]. cbn [bind] in F. destruct (idxmax lp) as [i|]; [|discriminate]. cbn [bind] in F. destruct (dget_res chains k0) as [col|]; [|discriminate]. cbn [bind] in F.
  injection F as <-. apply dget_dset_other. intros ->. apply N, H. now left.
Qed.
Lemma tab_derived_chains s chains rows dp : tab_derived T setorder geterr of_quantiles show nplanets letters nulls (x_chains s) (x_maxp s) (x_latex s) (x_units s) suffixes = Ok (chains, rows) ->
  derived_plot nplanets letters nulls (x_chains s) = Ok dp -> chains = fst dp.
Proof. unfold tab_derived. intros E D. rewrite D in E. cbn [bind] in E. destruct (for_each _ _ _); [|discriminate]. cbn [bind] in E. destruct (ParTable.table_rows _ _ _ _ _ _ _ _ _ _ _ _ _ _); [|discriminate]. cbn [bind] in E. now injection E. Qed.
Lemma derived_same s tb s' : x_quant s = quantiles (x_chains s) -> dtab s = Ok (tb, s') -> same s' s /\ x_quant s' = quantiles (x_chains s').
Proof.
  intros QE. unfold derived_tab. destruct (x_derived s); cbn [negb]; [|intro H; injection H as <- <-; split; [apply same_refl|exact QE]].
  destruct (derived_plot _ _ _ _) as [dp|] eqn:DP; [|discriminate]. cbn [bind]. destruct (tab_derived _ _ _ _ _ _ _ _ _ _ _ _ _) as [[chains rows]|] eqn:TD; [|discriminate]. cbn [bind].
  destruct (for_each _ _ _) as [mp|] eqn:FE; [|discriminate]. cbn [bind]. intro H. injection H as <- <-. cbn [x_quant x_chains]. split; [|reflexivity].
  pose proof (tab_derived_chains _ _ _ _ TD DP) as ->. assert (same_off (fst dp) (x_chains s)) as SC.
  { intros k N. apply (plot_keeps _ _ _ _ _ DP). left. intros i _ ->. apply N. exists "mpsini", i. cbn. auto. }
  split; cbn [x_chains x_quant x_latex x_maxp x_units].
  - exact SC.
  - rewrite QE. now apply quantiles_same.
  - apply (update_same _ _ _ _ DP).
  - eapply best_same; [|exact FE]. apply (labels_derived _ _ DP).
  - apply (update_same _ _ _ _ DP).
Qed.

(** the state of a run *)
Definition good (s s0 : tex) : Prop := same s s0 /\ x_quant s = quantiles (x_chains s).
Variable s0 : tex.
Hypothesis Q0 : x_quant s0 = quantiles (x_chains s0).
Hypothesis AG : forall c l, again = Ok (c, l) -> same_off c (x_chains s0) /\ same_off l (x_latex s0).

Lemma good_trans a b c : same a b -> same b c -> same a c.
Proof. intros [] []. split; eapply same_trans; eauto. Qed.
Lemma good_step s t tb s' : good s s0 -> one s t = Ok (tb, s') -> good s' s0.
Proof.
  intros [G QE] E. destruct t; cbn [one_tab] in E.
  - destruct (params_tab _ _ _ _ _ _ _ _ _ _); [|discriminate]. injection E as <- <-. split; auto.
  - destruct (prior_tab _); [|discriminate]. injection E as <- <-. split; auto.
  - destruct (rv_tab _ _ _ _ _); [|discriminate]. injection E as <- <-. split; auto.
  - destruct ic as [[comp|]|]; [|discriminate|discriminate]. cbn [bind] in E. destruct again as [[c l]|] eqn:EA; [|discriminate]. cbn [bind] in E.
    destruct (comp_tab _ _); [|discriminate]. cbn [bind] in E. injection E as <- <-. destruct (AG c l eq_refl) as [A1 A2]. destruct G as [C Q L M U].
    split; [|reflexivity]. split; cbn [x_chains x_quant x_latex x_maxp x_units]; auto. rewrite Q0. now apply quantiles_same.
  - destruct has_run; [|discriminate]. destruct (derived_same _ _ _ QE E) as [A B]. split; [eapply good_trans; eauto|exact B].
  - injection E as <- <-. split; auto.
Qed.
Lemma good_same s t tb s' : good s s0 -> t <> TDerived -> one s t = Ok (tb, s') -> exists s1, one s0 t = Ok (tb, s1).
Proof.
  intros [G QE] NT E. destruct t; cbn [one_tab] in *; try congruence.
  - rewrite (params_same T geterr of_quantiles show suffixes (proj2 (proj2 PN)) s s0 G fb nplanets extra names PN) in E. destruct (params_tab _ _ _ _ _ _ _ _ _ _); [|discriminate]. cbn [bind] in *. injection E as -> _. eauto.
  - destruct (prior_tab _); [|discriminate]. cbn [bind] in *. injection E as -> _. eauto.
  - destruct (rv_tab _ _ _ _ _); [|discriminate]. cbn [bind] in *. injection E as -> _. eauto.
  - destruct ic as [[comp|]|]; [|discriminate|discriminate]. cbn [bind] in *. destruct again as [[c l]|]; [|discriminate]. cbn [bind] in *. unfold comp_tab in *. cbn [x_comp] in *.
    destruct (tab_comparison _ _); [|discriminate]. cbn [bind] in *. injection E as -> _. eauto.
  - injection E as -> _. eauto.
Qed.
Lemma run_cons t l s files : run (t :: l) s files = match one s t with Err e => (files, Err e) | Ok (tb, s1) => run l s1 (dset files (ttext t) tb) end.
Proof. reflexivity. Qed.
Lemma run_files types : forall s files files' s', run types s files = (files', Ok s') -> forall k, ~ In k (map ttext types) -> dget files' k = dget files k.
Proof.
  induction types as [|t l IH]; intros s files files' s' E k N; [cbn in E; injection E as <- _; reflexivity|]. rewrite run_cons in E. destruct (one s t) as [[tb s1]|]; [|discriminate].
  rewrite (IH _ _ _ _ E) by (cbn in N; tauto). apply dget_dset_other. intros ->. apply N. now left.
Qed.
Lemma tables_alone types : forall s files files' s', good s s0 -> run types s files = (files', Ok s') -> forall t, t <> TDerived ->
  (In t types -> exists tb s1, one s0 t = Ok (tb, s1) /\ dget files' (ttext t) = Some tb) /\
  (~ In t types -> dget files' (ttext t) = dget files (ttext t)).
Proof.
  induction types as [|t0 l IH]; intros s files files' s' G E t NT.
  - cbn in E. injection E as <- _. split; [intros []|reflexivity].
  - rewrite run_cons in E. destruct (one s t0) as [[tb s1]|] eqn:O; [|discriminate]. pose proof (good_step _ _ _ _ G O) as G1. destruct (IH _ _ _ _ G1 E t NT) as [A B]. split.
    + intros H. destruct (in_dec (fun a b : ttype => ltac:(decide equality)) t l) as [I|NI]; [now apply A|]. destruct H as [->|H]; [|contradiction].
      rewrite (B NI), dget_dset_same. destruct (good_same _ _ _ _ G NT O) as [s2 O2]. eauto.
    + intro N. rewrite B by (cbn in N; tauto). apply dget_dset_other. intro EE. apply ttext_inj in EE. subst. apply N. now left.
Qed.
Lemma one_keeps s t tb s' : t <> TDerived -> t <> TIc -> one s t = Ok (tb, s') -> s' = s.
Proof.
  intros N1 N2 E. destruct t; cbn [one_tab] in E; try congruence.
  - destruct (params_tab _ _ _ _ _ _ _ _ _ _); [|discriminate]. now injection E as _ <-.
  - destruct (prior_tab _); [|discriminate]. now injection E as _ <-.
  - destruct (rv_tab _ _ _ _ _); [|discriminate]. now injection E as _ <-.
Qed.
Lemma tables_derived a b : forall s files files' s', ~ In TIc a -> ~ In TDerived a -> ~ In TDerived b -> run (a ++ TDerived :: b) s files = (files', Ok s') ->
  exists tb s1, one s TDerived = Ok (tb, s1) /\ dget files' (ttext TDerived) = Some tb.
Proof.
  induction a as [|t l IH]; intros s files files' s' N1 N2 N3 E; cbn [app] in E; rewrite run_cons in E.
  - destruct (one s TDerived) as [[tb s1]|]; [|discriminate]. exists tb, s1. split; [reflexivity|]. rewrite (run_files _ _ _ _ _ E); [apply dget_dset_same|].
    intro I. apply in_map_iff in I as (t & EE & I). apply ttext_inj in EE. now subst.
  - destruct (one s t) as [[tb s1]|] eqn:O; [|discriminate]. assert (s1 = s) as ->. { eapply one_keeps; [| |exact O]; intros ->; [apply N2|apply N1]; now left. }
    eapply IH; [| | |exact E]; cbn in *; tauto.
Qed.
(** the run goes through *)
Lemma one_total s t tb s1 : good s s0 -> t <> TDerived -> one s0 t = Ok (tb, s1) -> exists s2, one s t = Ok (tb, s2) /\ (t <> TIc -> s2 = s) /\ (t = TIc -> x_derived s2 = false).
Proof.
  intros [G QE] NT E. destruct t; cbn [one_tab] in *; try congruence.
  - rewrite (params_same T geterr of_quantiles show suffixes (proj2 (proj2 PN)) s s0 G fb nplanets extra names PN). destruct (params_tab _ _ _ _ _ _ _ _ _ _); [|discriminate]. cbn [bind] in *. injection E as -> _. eexists. repeat split; congruence.
  - destruct (prior_tab _); [|discriminate]. cbn [bind] in *. injection E as -> _. eexists. repeat split; congruence.
  - destruct (rv_tab _ _ _ _ _); [|discriminate]. cbn [bind] in *. injection E as -> _. eexists. repeat split; congruence.
  - destruct ic as [[comp|]|]; [|discriminate|discriminate]. cbn [bind] in *. destruct again as [[c l]|]; [|discriminate]. cbn [bind] in *. unfold comp_tab in *. cbn [x_comp] in *.
    destruct (tab_comparison _ _); [|discriminate]. cbn [bind] in *. injection E as -> _. eexists. repeat split; congruence.
  - injection E as -> _. eexists. repeat split; congruence.
Qed.
Lemma tables_made types : NoDup types -> (forall t, In t types -> exists tb s1, one s0 t = Ok (tb, s1)) ->
  forall s files, good s s0 -> (s = s0 \/ x_derived s = false \/ ~ In TDerived types) -> exists files' s', run types s files = (files', Ok s').
Proof.
  induction types as [|t l IH]; intros ND H s files G D; [cbn; eauto|]. inversion ND as [|? ? NI ND']; subst. rewrite run_cons.
  assert (exists tb s2, one s t = Ok (tb, s2) /\ (s2 = s0 \/ x_derived s2 = false \/ ~ In TDerived l)) as (tb & s2 & O & D2).
  { destruct (H t (or_introl eq_refl)) as (tb & s1 & O). assert ({t = TDerived} + {t <> TDerived}) as [->|NT] by decide equality.
    - destruct D as [->|[D|D]]; [exists tb, s1; split; [exact O|tauto]|cbn [one_tab] in *|destruct D; now left].
      destruct has_run; [|discriminate]. unfold derived_tab. rewrite D. cbn [negb]. do 2 eexists. split; [reflexivity|]. tauto.
    - destruct (one_total s t tb s1 G NT O) as (s2 & O2 & K1 & K2). exists tb, s2. split; [exact O2|]. assert ({t = TIc} + {t <> TIc}) as [->|NC] by decide equality.
      + right. left. auto.
      + rewrite (K1 NC). cbn in D. tauto. }
  rewrite O. apply IH; auto; [intros; apply H; now right|]. eapply good_step; eauto.
Qed.
End Run.
