(** Proofs about the text of a fit (C83). *)
From Coq Require Import Reals String Ascii DecimalString Arith Bool Lra Lia List.
From Verif Require Import Py PyFacts Params ParamsProofs ParamsSpec VectorProofs Basis BasisProofs BasisConv BasisThms PostProcSpec PostProcProofs PickleProofs TabAgain FitText FitTextSpec.
Import ListNotations.
Open Scope string_scope.

(** ** strings *)
Notation chars := list_ascii_of_string.
Lemma chars_app a b : chars (a ++ b) = (chars a ++ chars b)%list.
Proof. induction a; cbn; congruence. Qed.
Lemma str_app a b c : (a ++ b) ++ c = a ++ (b ++ c).
Proof. induction a; cbn; congruence. Qed.
Lemma str_nil a : a ++ "" = a.
Proof. induction a; cbn; congruence. Qed.
Lemma split_tok_aux w : forall cur s, ~ In " "%char (chars w) -> split_aux (w ++ String " " s) cur = (if String.eqb (cur ++ w) "" then split s else (cur ++ w) :: split s).
Proof.
  induction w as [|c w IH]; intros cur s N; cbn [append split_aux].
  - rewrite str_nil. reflexivity.
  - cbn [list_ascii_of_string] in N. destruct (Ascii.eqb_spec c " ") as [->|_]; [destruct N; now left|]. rewrite IH by (intro; apply N; now right). now rewrite str_app.
Qed.
Lemma split_end_aux w : forall cur, ~ In " "%char (chars w) -> split_aux w cur = (if String.eqb (cur ++ w) "" then [] else [cur ++ w]).
Proof.
  induction w as [|c w IH]; intros cur N; cbn [split_aux].
  - now rewrite str_nil.
  - cbn [list_ascii_of_string] in N. destruct (Ascii.eqb_spec c " ") as [->|_]; [destruct N; now left|]. rewrite IH by (intro; apply N; now right). now rewrite str_app.
Qed.
Lemma split_tok w s : word w -> split (w ++ String " " s) = w :: split s.
Proof. intros (E & N & _). unfold split. rewrite split_tok_aux by exact N. cbn [append]. now destruct (String.eqb_spec w ""). Qed.
Lemma split_end w : word w -> split w = [w].
Proof. intros (E & N & _). unfold split. rewrite split_end_aux by exact N. cbn [append]. now destruct (String.eqb_spec w ""). Qed.
Lemma split_spaces n s : split (spaces n ++ s) = split s.
Proof. induction n as [|n IH]; [reflexivity|]. cbn [spaces append]. exact IH. Qed.
Lemma spaces_one n s : spaces n ++ String " " s = String " " (spaces n ++ s).
Proof. induction n as [|n IH]; [reflexivity|]. cbn [spaces append]. now rewrite IH. Qed.
Lemma split_pad w n s : word w -> split (w ++ spaces n ++ String " " s) = w :: split s.
Proof. intro W. rewrite spaces_one, split_tok by exact W. f_equal. apply split_spaces. Qed.
Lemma padl_one n w : (String.length w < n)%nat -> exists m, padl n w = String " " (spaces m ++ w).
Proof. intro H. unfold padl. destruct (n - String.length w)%nat as [|m] eqn:E; [lia|]. exists m. reflexivity. Qed.
Lemma no_nl_spaces n : ~ In "010"%char (chars (spaces n)).
Proof. induction n; cbn; [easy|]. intros [H|H]; [discriminate|auto]. Qed.
Lemma no_nl_app a b : ~ In "010"%char (chars a) -> ~ In "010"%char (chars b) -> ~ In "010"%char (chars (a ++ b)).
Proof. intros A B. rewrite chars_app. intro H. apply in_app_or in H. tauto. Qed.
Lemma lines_line a rest : ~ In "010"%char (chars a) -> lines (a ++ nl ++ rest) = a :: lines rest.
Proof.
  intro N. induction a as [|c a IH]; [reflexivity|]. cbn [list_ascii_of_string] in N. cbn [append lines]. destruct (Ascii.eqb_spec c "010") as [->|_]; [destruct N; now left|].
  unfold nl in IH. cbn [append] in IH. change (nl ++ rest) with (String "010" rest). rewrite IH by (intro; apply N; now right). reflexivity.
Qed.
Definition cat (l : list string) : string := fold_right append "" l.
Lemma fold_cat {A} (f : A -> string) l : forall s, fold_left (fun s k => s ++ f k) l s = s ++ cat (map f l).
Proof. induction l as [|x l IH]; intro s; cbn [fold_left map cat fold_right]; [now rewrite str_nil|]. now rewrite IH, str_app. Qed.

(** ** lines *)
Section Lines.
Variables (g : option R -> string) (tb : R) (u : option (dict (option R))).
Definition show_row (k : string) (x : option R) (v : varyv) : shown :=
  mkShown k (shift tb k x) (match u with None => None | Some u => Some (match dget u k with Some e => e | None => Some 0%R end) end) (flag v).
Definition body (k : string) (x : option R) (v : varyv) : string :=
  match u with
  | None => padr 20 k ++ padl 15 (g (shift tb k x)) ++ " " ++ padl 10 (vstr v)
  | Some u => padr 20 k ++ padl 15 (g (shift tb k x)) ++ padl 10 (g (match dget u k with Some e => e | None => Some 0%R end)) ++ padl 10 (vstr v)
  end.
Lemma line_body k x v : text_line g tb u k x v = body k x v ++ nl.
Proof. unfold text_line, body. destruct u; rewrite !str_app; reflexivity. Qed.
Lemma split_flag v : split (padl 10 (vstr v)) = flag v.
Proof. destruct v as [[]|]; reflexivity. Qed.
Hypothesis FT : fits g u.
Lemma body_fields k x v : word k -> split (body k x v) = fields g (show_row k x v) /\ ~ In "010"%char (chars (body k x v)).
Proof.
  intro W. destruct FT as [FG FU]. destruct (FG (shift tb k x)) as [WV LV]. destruct (padl_one 15 (g (shift tb k x))) as [m PM]; [lia|].
  unfold body, fields, show_row. cbn [sh_name sh_value sh_err sh_flag]. destruct u as [d|].
  - set (e := match dget d k with Some e => e | None => Some 0%R end). destruct (FG e) as [WE _]. destruct (padl_one 10 (g e)) as [m2 PM2]; [specialize (FU k); fold e in FU; lia|].
    split.
    + unfold padr. rewrite PM, PM2, str_app. cbn [append]. rewrite split_pad by exact W. rewrite str_app, split_spaces. rewrite split_tok by exact WV. rewrite str_app, split_spaces.
      assert (exists r, padl 10 (vstr v) = String " " r) as [r Er] by (destruct v as [[]|]; eexists; reflexivity).
      pose proof (split_flag v) as SF. rewrite Er in SF |- *. rewrite split_tok by exact WE. change (split (String " " r)) with (split r) in SF. rewrite SF. reflexivity.
    + unfold padr, padl. repeat apply no_nl_app; try apply no_nl_spaces; try apply W; try apply WV; try apply WE. destruct v as [[]|]; cbn; intuition discriminate.
  - split.
    + unfold padr. rewrite PM, str_app. cbn [append]. rewrite split_pad by exact W. rewrite str_app, split_spaces. rewrite split_tok by exact WV. rewrite split_flag. reflexivity.
    + unfold padr, padl. repeat apply no_nl_app; try apply no_nl_spaces; try apply W; try apply WV; try (cbn; intuition discriminate). destruct v as [[]|]; cbn; intuition discriminate.
Qed.
(** the rows of a key *)
Definition rows_of (idx : dict nat) (h : heap) (d : dict nat) (k : string) : list shown :=
  match get_param h d k with
  | None => []
  | Some p => match p_value p with Some v => [show_row k (Some v) (p_vary p)] | None => if dmem idx k then [show_row k None (p_vary p)] else [] end
  end.
Lemma entry_lines idx h d k rest : word k -> map split (lines (entry_text g tb u idx h d k ++ rest)) = (map (fields g) (rows_of idx h d k) ++ map split (lines rest))%list.
Proof.
  intro W. unfold entry_text, rows_of. destruct (get_param h d k) as [p|]; [|reflexivity].
  assert (forall x v, map split (lines (text_line g tb u k x v ++ rest)) = (map (fields g) [show_row k x v] ++ map split (lines rest))%list) as Q.
  { intros x v. rewrite line_body, str_app. destruct (body_fields k x v W) as [A B]. rewrite lines_line by exact B. cbn [map app]. now rewrite A. }
  destruct (p_value p); [apply Q|]. destruct (dmem idx k); [apply Q|reflexivity].
Qed.
Lemma entries_lines idx h d keys rest : (forall k, In k keys -> word k) ->
  map split (lines (entries_text g tb u idx h d keys ++ rest)) = (map (fields g) (flat_map (rows_of idx h d) keys) ++ map split (lines rest))%list.
Proof.
  unfold entries_text. rewrite fold_cat. cbn [append]. induction keys as [|k l IH]; intro W; [reflexivity|]. cbn [map cat fold_right flat_map]. fold (cat (map (entry_text g tb u idx h d) l)). rewrite str_app, entry_lines by (apply W; now left).
  rewrite IH by (intros; apply W; now right). now rewrite map_app, app_assoc.
Qed.
Lemma header_lines rest : map split (lines (text_header u ++ rest)) = head u :: map split (lines rest).
Proof. clear FT. unfold text_header. destruct u; rewrite !str_app; cbn; reflexivity. Qed.
Lemma rows_name idx h d k e : In e (rows_of idx h d k) -> sh_name e = k.
Proof. unfold rows_of. destruct (get_param h d k) as [p|]; [|easy]. destruct (p_value p); [intros [<-|[]]; reflexivity|]. destruct (dmem idx k); [intros [<-|[]]; reflexivity|easy]. Qed.
Lemma flat_names idx h d keys : map sh_name (flat_map (rows_of idx h d) keys) = filter (fun k => negb (Nat.eqb (length (rows_of idx h d k)) 0)) keys.
Proof.
  induction keys as [|k l IH]; [reflexivity|]. cbn [flat_map filter]. rewrite map_app, IH. unfold rows_of at 1 3. destruct (get_param h d k) as [p|]; [|reflexivity]. destruct (p_value p); [reflexivity|]. destruct (dmem idx k); reflexivity.
Qed.
Lemma shift_displayed k x : displayed tb k x (shift tb k x).
Proof.
  unfold displayed, shift. destruct x as [v|]; [|reflexivity].
  assert ((startswith k "tc" || startswith k "tp")%bool = true <-> time_name k) as T.
  { unfold startswith, time_name. rewrite orb_true_iff. assert (forall pre, String.prefix pre k = true <-> exists r, k = pre ++ r) as Q.
    { intro pre. revert k. induction pre as [|c pre IH]; intro k; destruct k as [|c' k]; cbn [String.prefix append]; try (split; eauto; fail); [split; [discriminate|intros [r H]; discriminate]|].
      destruct (ascii_dec c c') as [->|N]; [rewrite IH; split; intros [r H]; exists r; [now rewrite H|now injection H]|]. split; [discriminate|]. intros [r H]. injection H. congruence. }
    rewrite !Q. split; [intros [[r H]|[r H]]; exists r; auto|intros (r & [H|H]); [left|right]; eauto]. }
  assert (rltb (10 ^ 6) v = true <-> (v > 1000000)%R) as L by (rewrite rltb_true; split; intro; lra).
  destruct ((startswith k "tc" || startswith k "tp") && rltb (10 ^ 6) v)%bool eqn:E.
  - apply andb_true_iff in E as [A B]. rewrite T in A. rewrite L in B. split; [reflexivity|]. intro N. destruct N. auto.
  - split; [|reflexivity]. intros [A B]. apply T in A. apply L in B. rewrite A, B in E. discriminate.
Qed.
End Lines.

(** ** vector_to_dict *)
Lemma vd_spec d idx v h : objects_ok h d -> (forall k i, In k (dkeys d) -> dget idx k = Some i -> (i < length v)%nat) ->
  exists h1, vector_to_dict d idx v h = Ok h1 /\ length h1 = length h /\
    forall k p, get_param h d k = Some p -> exists p1, get_param h1 d k = Some p1 /\ p_vary p1 = p_vary p /\
      match dget idx k with Some i => exists r, nth_error v i = Some r /\ p_value p1 = r_val r | None => p_value p1 = p_value p end.
Proof.
  intros [OW OA ON] HI. destruct (vd_fill d idx v (dkeys d) h OW) as (h1 & E & L & G & _); auto.
  - intros k Hk. apply dget_some_key in Hk as [l El]. exists l. split; [exact El|eauto].
  - exists h1. split; [exact E|]. split; [exact L|]. intros k p Gp. assert (In k (dkeys d)) as Hk by (unfold get_param in Gp; destruct (dget d k) eqn:El; [eapply dget_key; eauto|discriminate]).
    specialize (G k p Hk Gp). rewrite G. eexists. split; [reflexivity|]. destruct (dget idx k) as [i|] eqn:Ei; [|auto]. cbn [p_vary p_value]. split; [reflexivity|].
    pose proof (HI k i Hk Ei) as Hl. apply nth_error_Some in Hl. destruct (nth_error v i) as [r|]; [|easy]. exists r. auto.
Qed.

(** ** the whole text *)
Section Whole.
Variables (g : option R -> string) (tb : R) (u : option (dict (option R))).
Variables (idx : dict nat) (v : list row) (h : heap) (ps : params) (b : string) (names : list string) (val : nat -> string -> R).
Notation d := (ps_items ps).
Hypothesis OK : params_ok h ps b names.
Hypothesis OB : objects_ok h d.
Hypothesis HI : forall k i, In k (dkeys d) -> dget idx k = Some i -> (i < length v)%nat.
Hypothesis HV : forall n p, (1 <= n <= ps_num ps)%nat -> In p names -> exists i r, dget idx (key p n) = Some i /\ nth_error v i = Some r /\ r_val r = Some (val n p).

Lemma derived_synth h1 : vector_to_dict d idx v h = Ok h1 ->
  exists h2 sp, to_synth h1 (ps_basis ps) ps true None = Ok (h2, sp) /\ NoDup (dkeys (ps_items sp)) /\
    (forall k, In k (dkeys (ps_items sp)) -> ~ In k (dkeys d) -> element_key (ps_num ps) k) /\
    (forall n p, (1 <= n <= ps_num ps)%nat -> In p FIVE -> ~ In (key p n) (dkeys d) ->
       In (key p n) (dkeys (ps_items sp)) /\ exists q, get_param h2 (ps_items sp) (key p n) = Some q /\ p_value q = Some (meaning (els b (val n)) p) /\ p_vary q = VEmpty).
Proof.
  intro E. destruct (vd_spec d idx v h OB HI) as (h1' & E' & L & G). rewrite E in E'. injection E' as <-.
  assert (params_ok h1 ps b names) as OK1 by (destruct OK; constructor; auto; intros; rewrite L; eauto).
  assert (forall n, (1 <= n <= ps_num ps)%nat -> holds h1 ps names n (val n)) as H1.
  { intros n Hn p Hp. destruct (HV n p Hn Hp) as (i & r & Ei & Er & Ev). unfold value_at.
    pose proof (po_has _ _ _ _ OK n p Hn Hp) as Hk. apply dget_some_key in Hk as [l El]. pose proof (o_alloc _ _ OB _ _ El) as Hl. apply nth_error_Some in Hl. destruct (nth_error h l) as [q|] eqn:Eq; [|easy].
    destruct (G (key p n) q) as (p1 & Gp & _ & M); [unfold get_param; now rewrite El|]. rewrite Gp. rewrite Ei in M. destruct M as (r' & Er' & ->). rewrite Er in Er'. injection Er' as <-. exact Ev. }
  destruct (to_synth_main h1 ps b names true val (fun n => els b (val n)) OK1 H1) as (h2 & sp & S & OK2 & _ & N2 & _ & _ & _ & HD & NO & PJ).
  { intros n Hn. apply els_ok with (names := names). apply OK. }
  destruct (to_synth_keeps h1 ps b names val h2 sp OK1 H1 S) as [K1 K2].
  exists h2, sp. split; [exact S|]. split; [apply OK2|]. split.
  - intros k Hk N. destruct (TabAgain.to_synth_keys _ _ _ _ _ _ _ S) as (K & _). apply K in Hk as [[Hk|Hk]|(p & n & Hp & Hn & ->)]; [contradiction| |exists p, n; rewrite (po_num _ _ _ _ OK) in Hn; auto].
    exfalso. apply N. rewrite (po_name _ _ _ _ OK), (fit_names b names (po_fit _ _ _ _ OK)) in Hk. apply default_keys_in in Hk as (n & p & Hn & Hp & ->). apply (po_has _ _ _ _ OK); auto.
  - intros n p Hn Hp N. destruct (K2 n p Hn Hp) as [A B]. split; [exact A|]. unfold value_at in B. pose proof (synth_pnames p Hp) as PN.
    assert (get_param h2 (ps_items sp) (key p n) = dget (projv h2 n (ps_items sp)) p) as Q by (symmetry; apply projv_get; [exact (po_locs _ _ _ _ OK2)|exact PN]).
    destruct (get_param h2 (ps_items sp) (key p n)) as [q|] eqn:Gq; [|discriminate]. exists q. split; [reflexivity|]. split; [exact B|]. rewrite (PJ n Hn) in Q. unfold to_synth1 in Q.
    assert (dget (projv h1 n d) p = None) as Z by (rewrite projv_get by (auto; exact (po_locs _ _ _ _ OK1)); unfold get_param; apply dget_none in N; now rewrite N).
    destruct (el_tuple (els b (val n))) as [[[[? ?] ?] ?] ?]. cbn [sets_of fold_left] in Q. rewrite !dget_set1 in Q. cbn [fst] in Q. cbn in Hp.
    decompose [or] Hp; try contradiction; subst p; cbn [String.eqb Ascii.eqb Bool.eqb] in Q; rewrite Z in Q; injection Q as ->; reflexivity.
Qed.
Hypothesis FT : fits g u.
Hypothesis WD : forall k, In k (dkeys d) -> word k.
Lemma digit_word c : In c (chars "0123456789") -> c <> " "%char /\ c <> "010"%char.
Proof. cbn. intro H. decompose [or] H; subst; try contradiction; split; discriminate. Qed.
Lemma nat_chars n : forall c, In c (chars (str_nat n)) -> In c (chars "0123456789").
Proof. unfold str_nat. generalize (Nat.to_uint n) as x. induction x; cbn [NilEmpty.string_of_uint list_ascii_of_string]; intros c H; [easy| | | | | | | | | |]; (destruct H as [<-|H]; [cbn; tauto|apply IHx; exact H]). Qed.
Lemma element_word k : element_key (ps_num ps) k -> word k.
Proof.
  intros (p & n & Hp & _ & ->). unfold key. assert (forall c, In c (chars (p ++ str_nat n)) -> c <> " "%char /\ c <> "010"%char) as Q.
  { intros c H. rewrite chars_app in H. apply in_app_or in H as [H|H]; [|now apply digit_word, nat_chars with n]. cbn in Hp. decompose [or] Hp; try contradiction; subst p; cbn in H; decompose [or] H; subst; try contradiction; split; discriminate. }
  split; [|split; intro H; destruct (Q _ H); congruence]. cbn in Hp. decompose [or] Hp; try contradiction; subst p; discriminate.
Qed.

Theorem text_rows : exists h1 text rows, like_repr g tb u idx v h ps = Ok (h1, text) /\ vector_to_dict d idx v h = Ok h1 /\
  map split (lines text) = (head u :: map (fields g) rows ++ [[]])%list /\ NoDup (map sh_name rows) /\
  filter (dmem d) (map sh_name rows) = filter (fun k => existsb (String.eqb k) (map sh_name rows)) (dkeys d) /\
  (forall k p, get_param h d k = Some p ->
     match dget idx k, p_value p with
     | None, None => ~ In k (map sh_name rows)
     | i, x => exists e, In e rows /\ sh_name e = k /\ uncertainty u k (sh_err e) /\ sh_flag e = flag (p_vary p) /\
                 match i with Some i => exists r, nth_error v i = Some r /\ displayed tb k (r_val r) (sh_value e) | None => displayed tb k x (sh_value e) end
     end) /\
  (forall n p, (1 <= n <= ps_num ps)%nat -> In p FIVE -> ~ In (key p n) (dkeys d) ->
     exists e, In e rows /\ sh_name e = key p n /\ uncertainty u (key p n) (sh_err e) /\ sh_flag e = [] /\ displayed tb (key p n) (Some (meaning (els b (val n)) p)) (sh_value e)) /\
  (forall k, In k (map sh_name rows) -> In k (dkeys d) \/ element_key (ps_num ps) k).
Proof.
  destruct (vd_spec d idx v h OB HI) as (h1 & E & L & G). destruct (derived_synth h1 E) as (h2 & sp & S & ND2 & K2 & V2).
  set (new := filter (fun k => negb (dmem d k)) (dkeys (ps_items sp))).
  assert (forall k, In k new <-> In k (dkeys (ps_items sp)) /\ ~ In k (dkeys d)) as NEW.
  { intro k. unfold new. rewrite filter_In. unfold dmem. destruct (dget d k) eqn:Q.
    - cbn. split; [intros [_ H]; discriminate|]. intros [_ H]. destruct H. eapply dget_key; eauto.
    - cbn. apply dget_none in Q. tauto. }
  set (r1 := flat_map (rows_of tb u idx h1 d) (dkeys d)). set (r2 := flat_map (rows_of tb u [] h2 (ps_items sp)) new).
  exists h1, (text_header u ++ entries_text g tb u idx h1 d (dkeys d) ++ entries_text g tb u [] h2 (ps_items sp) new), (r1 ++ r2)%list.
  assert (forall e, uncertainty u (sh_name (show_row tb u e None VEmpty)) (sh_err (show_row tb u e None VEmpty))) as UN by (intro e; cbn; unfold uncertainty; now destruct u).
  assert (forall k x w, uncertainty u k (sh_err (show_row tb u k x w))) as UN2 by (intros k x w; exact (UN k)). clear UN.
  assert (forall k, In k (map sh_name r1) -> In k (dkeys d)) as N1 by (intros k H; unfold r1 in H; rewrite flat_names in H; apply filter_In in H; tauto).
  assert (forall k, In k (map sh_name r2) -> In k new) as N2 by (intros k H; unfold r2 in H; rewrite flat_names in H; apply filter_In in H; tauto).
  split; [|split; [exact E|split; [|split; [|split; [|split; [|split]]]]]].
  - unfold like_repr. rewrite E. cbn [bind]. rewrite S. fold new. now rewrite str_app.
  - rewrite header_lines. rewrite entries_lines by (auto; exact FT). rewrite <- (str_nil (entries_text g tb u [] h2 (ps_items sp) new)). rewrite entries_lines; [|exact FT|intros k Hk; apply NEW in Hk; apply element_word; apply K2; tauto].
    rewrite map_app. cbn [lines map]. now rewrite <- app_assoc.
  - rewrite map_app. assert (forall (l1 l2 : list string), NoDup l1 -> NoDup l2 -> (forall x, In x l1 -> In x l2 -> False) -> NoDup (l1 ++ l2)) as NDA.
    { clear. induction l1 as [|x l1 IH]; intros l2 A B D; [exact B|]. inversion A; subst. cbn. constructor; [rewrite in_app_iff; intros [H|H]; [auto|apply (D x); [now left|exact H]]|]. apply IH; auto. intros y Hy. apply D. now right. }
    apply NDA.
    + unfold r1. rewrite flat_names. apply NoDup_filter. apply OB.
    + unfold r2. rewrite flat_names. apply NoDup_filter. unfold new. now apply NoDup_filter.
    + intros k A B. apply N1 in A. apply N2, NEW in B. tauto.
  - rewrite map_app, filter_app.
    assert (filter (dmem d) (map sh_name r2) = []) as ->.
    { assert (forall k, In k (map sh_name r2) -> dmem d k = false) as Q by (intros k H; apply N2, NEW in H as [_ H]; apply dget_none in H; unfold dmem; now rewrite H). revert Q. generalize (map sh_name r2) as l. clear. induction l as [|x l IH]; intro Q; [reflexivity|]. cbn. rewrite Q by now left. apply IH. intros; apply Q; now right. }
    rewrite app_nil_r.
    assert (filter (dmem d) (map sh_name r1) = map sh_name r1) as ->.
    { assert (forall k, In k (map sh_name r1) -> dmem d k = true) as Q by (intros k H; apply N1 in H; apply dget_some_key in H as [x H]; unfold dmem; now rewrite H). revert Q. generalize (map sh_name r1) as l. clear. induction l as [|x l IH]; intro Q; [reflexivity|]. cbn. rewrite Q by now left. f_equal. apply IH. intros; apply Q; now right. }
    unfold r1 at 1. rewrite flat_names. apply filter_ext_in. intros k Hk. apply eq_true_iff_eq. rewrite existsb_exists. split.
    + intro H. exists k. split; [|apply String.eqb_refl]. apply in_or_app. left. unfold r1. rewrite flat_names. apply filter_In. auto.
    + intros (k' & H & Q). apply String.eqb_eq in Q as <-. apply in_app_or in H as [H|H]; [unfold r1 in H; rewrite flat_names in H; apply filter_In in H; tauto|]. apply N2, NEW in H. tauto.
  - intros k p Gp. assert (In k (dkeys d)) as Hk by (unfold get_param in Gp; destruct (dget d k) eqn:El; [eapply dget_key; eauto|discriminate]).
    destruct (G k p Gp) as (p1 & Gp1 & VA & M).
    assert (forall x, In (show_row tb u k x (p_vary p1)) (rows_of tb u idx h1 d k) -> exists e, In e (r1 ++ r2) /\ sh_name e = k /\ uncertainty u k (sh_err e) /\ sh_flag e = flag (p_vary p) /\ displayed tb k x (sh_value e)) as Q.
    { intros x H. eexists. split; [apply in_or_app; left; unfold r1; apply in_flat_map; exists k; split; [exact Hk|exact H]|]. split; [reflexivity|]. split; [apply UN2|]. split; [cbn; now rewrite VA|]. cbn [sh_value show_row]. apply shift_displayed. }
    unfold rows_of in Q. rewrite Gp1 in Q. destruct (dget idx k) as [i|] eqn:Ei.
    + destruct M as (r & Er & Ev). destruct (Q (r_val r)) as (e & A & B & C & D & F).
      { rewrite Ev. destruct (r_val r); [now left|]. unfold dmem. rewrite Ei. now left. }
      assert (exists e0, In e0 (r1 ++ r2) /\ sh_name e0 = k /\ uncertainty u k (sh_err e0) /\ sh_flag e0 = flag (p_vary p) /\ (exists r0, nth_error v i = Some r0 /\ displayed tb k (r_val r0) (sh_value e0))) as Z by (exists e; repeat split; auto; exists r; auto).
      destruct (p_value p); exact Z.
    + destruct (p_value p) as [x|] eqn:Ex.
      * apply Q. rewrite M. now left.
      * rewrite map_app. intro H. apply in_app_or in H as [H|H]; [|apply N2, NEW in H; tauto]. unfold r1 in H. rewrite flat_names in H. apply filter_In in H as [_ H]. unfold rows_of in H. rewrite Gp1, M in H. unfold dmem in H. rewrite Ei in H. discriminate.
  - intros n p Hn Hp N. destruct (V2 n p Hn Hp N) as (A & q & Gq & Ev & Ew). eexists. split; [apply in_or_app; right; unfold r2; apply in_flat_map; exists (key p n); split; [apply NEW; auto|unfold rows_of; rewrite Gq, Ev; left; reflexivity]|].
    split; [reflexivity|]. split; [apply UN2|]. split; [cbn; now rewrite Ew|]. cbn [sh_value show_row]. apply shift_displayed.
  - intros k H. rewrite map_app in H. apply in_app_or in H as [H|H]; [left; auto|]. apply N2, NEW in H. right. apply K2; tauto.
Qed.
End Whole.
