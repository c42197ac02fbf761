(** Proofs about the plots of a sampling run (C79). *)
From Coq Require Import Reals String Arith ZArith Bool Lra Lia Sorted Permutation List.
From Verif Require Import Py PyFacts PyFloat Params Kepler Stats StatsProofs Timebin BintelsProofs TexLabels DerivTab DerivTabSpec DerivTabProofs Mcmc McmcSpec McmcProofs McmcThms McmcRows McmcSave McmcSaveThms Panels PanelSpec PanelMade ChainPlot ChainPlotSpec.
Import ListNotations.
Open Scope R_scope.

(** ** what is returned *)
Lemma run_table tr acor g inits m df :
  (forall e c p, shaped g (fst (tr e c p))) -> (2 <= g_check g)%nat -> (1 <= g_ensembles g)%nat -> (1 <= g_thin g)%nat ->
  length inits = g_ensembles g -> mcmc tr acor g inits None = Ok (m, df) ->
  exists chs r, m_chains m = Some chs /\ length chs = g_ensembles g /\ (1 <= r)%nat /\ (forall c, In c chs -> length c = (r * g_check g)%nat) /\
    Forall (shaped g) (concat chs) /\ forall i, nth_error df i = nth_error (df_rows g chs) (i * g_thin g).
Proof.
  intros Htr Hci He Ht Hl H. unfold mcmc in H. apply bind_ok in H as [n [_ H]]. apply bind_ok in H as [m' [Hr H]].
  destruct (m_chains m') as [chains|] eqn:Ec; [|discriminate]. apply bind_ok in H as [df' [Hd H]]. injection H as -> ->.
  destruct (run_after tr acor g inits None _ _ Hr) as [r [h [Ha [_ _]]]].
  assert (1 <= r)%nat as H1. { destruct r; [|lia]. inversion Ha; subst. discriminate Ec. }
  destruct (chains_trajectory tr acor g inits None r h m Hl Hci Ha H1) as [chains' [b [E1 [E2 [Lb [_ [_ E3]]]]]]].
  rewrite Ec in E1. injection E1 as <-.
  assert (forall c, In c chains -> exists e p0, nth_error inits e = Some p0 /\ nth_error chains e = Some c) as W.
  { intros c Hc. apply In_nth_error in Hc as [e Hce]. destruct (nth_error inits e) as [p0|] eqn:Ei; [eauto|].
    exfalso. apply nth_error_None in Ei. assert (e < length chains)%nat by (apply nth_error_Some; congruence). lia. }
  exists chains, (r - (if (b <? r)%nat then b else 0))%nat. split; [exact Ec|]. split; [exact E2|].
  split; [destruct (Nat.ltb_spec b r); lia|]. split; [|split].
  - intros c Hc. destruct (W c Hc) as (e & p0 & Ei & Hce). apply (E3 e p0 c Ei Hce).
  - apply Forall_concat. apply Forall_forall. intros c Hc. destruct (W c Hc) as (e & p0 & Ei & Hce).
    destruct (E3 e p0 c Ei Hce) as [_ F]. apply Forall_forall. intros x Hx. apply In_nth_error in Hx as [i Hi].
    rewrite F in Hi by (apply nth_error_Some; congruence). injection Hi as <-. apply Htr.
  - destruct (thinned_nth (g_thin g) (df_rows g chains) Ht) as [l [T1 T2]]. rewrite Hd in T1. injection T1 as <-. exact T2.
Qed.

Lemma concat_same {A} (chs : list (list A)) L : (forall c, In c chs -> length c = L) -> length (concat chs) = (length chs * L)%nat /\
  forall e c s, nth_error chs e = Some c -> (s < L)%nat -> nth_error (concat chs) (e * L + s) = nth_error c s.
Proof.
  intro H. induction chs as [|c0 chs IH]; [split; [reflexivity|]; intros [|e] c s; discriminate|]. destruct IH as [IL IN]; [intros; apply H; now right|].
  pose proof (H c0 (or_introl eq_refl)) as L0. cbn [concat length]. split; [rewrite app_length, IL; lia|].
  intros [|e] c s E Hs; cbn [nth_error] in E.
  - injection E as <-. cbn [Nat.mul Nat.add]. apply nth_error_app1. lia.
  - rewrite nth_error_app2 by lia. replace (S e * L + s - length c0)%nat with (e * L + s)%nat by lia. now apply IN.
Qed.

Lemma df_at g chs L : chs <> [] -> (forall c, In c chs -> length c = L) -> Forall (shaped g) (concat chs) ->
  length (df_rows g chs) = (nw_of g * length chs * L)%nat /\
  forall w e c s x, (w < nw_of g)%nat -> nth_error chs e = Some c -> nth_error c s = Some x ->
    nth_error (df_rows g chs) ((w * length chs + e) * L + s) = Some (walker_row w x).
Proof.
  intros N HL S. destruct (concat_same chs L HL) as [CL CN]. rewrite df_rows_eq by auto.
  assert (forall w, length (map (walker_row w) (concat chs)) = (length chs * L)%nat) as LT by (intro; now rewrite map_length). split.
  - clear - LT. generalize 0%nat. induction (nw_of g) as [|n IH]; intro a; cbn [seq flat_map]; [reflexivity|]. rewrite app_length, LT, IH. lia.
  - intros w e c s x Hw He Hx. assert (s < L)%nat as Hs. { rewrite <- (HL c) by (eapply nth_error_In; eauto). apply nth_error_Some. congruence. }
    assert (e < length chs)%nat as Le by (apply nth_error_Some; congruence).
    replace ((w * length chs + e) * L + s)%nat with (w * (length chs * L) + (e * L + s))%nat by lia.
    rewrite (flat_map_nth (fun w => map (walker_row w) (concat chs)) (length chs * L) LT) by (auto; nia). cbn [Nat.add].
    rewrite nth_error_map, (CN e c s He Hs), Hx. reflexivity.
Qed.
Lemma cell_walker j w x : cell j (walker_row w x) = value x w j.
Proof.
  unfold cell, walker_row, value. cbn [fst]. rewrite nth_error_map. destruct (nth_error (nth w (s_pos x) []) j) as [v|] eqn:E; cbn [option_map].
  - symmetry. now apply nth_error_nth.
  - symmetry. apply nth_overflow. now apply nth_error_None.
Qed.

(** ** arithmetic of thinning *)
Lemma thin_count (n L t k : nat) : (1 <= n)%nat -> (1 <= L)%nat -> (1 <= t)%nat -> (forall i, i < k <-> i * t < n * L)%nat ->
  (forall q, k = n * q -> L <= q * t /\ n * (q * t - L) < t)%nat /\
  (forall d q, (L + d = q * t)%nat -> (n * d < t)%nat -> k = (n * q)%nat).
Proof.
  intros Hn HL Ht K. split.
  - intros q ->. assert (L <= q * t)%nat as A.
    { destruct (Nat.lt_ge_cases (n * q * t) (n * L)) as [B|B]; [apply K in B; lia|]. nia. }
    split; [exact A|]. assert (1 <= q)%nat by (destruct q; [lia|lia]). assert (n * q - 1 < n * q)%nat as B by nia. apply K in B.
    rewrite Nat.mul_sub_distr_l. rewrite Nat.mul_sub_distr_r in B. nia.
  - intros d q E D. assert (1 <= q)%nat by (destruct q; lia).
    assert (~ (n * q < k)%nat) by (rewrite K; nia). assert (n * q - 1 < k)%nat. { apply K. rewrite Nat.mul_sub_distr_r. nia. } lia.
Qed.

Lemma nth_firstn_skipn {A} (l : list A) a q i : (i < q)%nat -> nth_error (firstn q (skipn a l)) i = nth_error l (a + i).
Proof.
  intro H. assert (forall m (l' : list A) k, (k < m)%nat -> nth_error (firstn m l') k = nth_error l' k) as F.
  { clear. induction m; intros [|x l'] [|k] Hk; cbn; auto; try lia. apply IHm. lia. }
  rewrite F by exact H. clear. revert l. induction a as [|a IH]; intros [|x l]; cbn [skipn Nat.add nth_error]; auto. now destruct i.
Qed.

(** ** pages *)
Lemma page_inv chains nw ne k tex p : trend_page chains nw ne k tex = Ok p -> exists flat q, dget chains k = Some flat /\ (1 <= nw * ne)%nat /\ length flat = (nw * ne * q)%nat /\
  p = mkPage k tex (concat (map (fun cw => map (fun line => (fst cw, line)) (snd cw)) (combine (linspace (5 / 100) (95 / 100) nw)
        (map (fun i => map (fun j => firstn q (skipn ((i * ne + j) * q) flat)) (seq 0 ne)) (seq 0 nw))))) q.
Proof.
  unfold trend_page, column. destruct (dget chains k) as [flat|]; [|discriminate]. cbn [bind]. unfold reshape3.
  destruct (Nat.eqb_spec (nw * ne) 0) as [Z|Z]; [discriminate|]. destruct (Nat.eqb_spec (length flat mod (nw * ne)) 0) as [M|M]; [|discriminate]. cbn [negb bind].
  intro H. injection H as <-. exists flat, (length flat / (nw * ne))%nat. split; [reflexivity|]. split; [lia|]. split; [|reflexivity].
  pose proof (Nat.div_mod (length flat) (nw * ne) Z). lia.
Qed.
Lemma page_ok chains nw ne k tex flat q : dget chains k = Some flat -> (1 <= nw * ne)%nat -> length flat = (nw * ne * q)%nat -> exists p, trend_page chains nw ne k tex = Ok p.
Proof.
  intros E N L. unfold trend_page, column. rewrite E. cbn [bind]. unfold reshape3. destruct (Nat.eqb_spec (nw * ne) 0); [lia|].
  rewrite L, (Nat.mul_comm (nw * ne)), Nat.mod_mul by lia. cbn. eauto.
Qed.
Lemma linspace_length a b n : length (linspace a b n) = n.
Proof. destruct n as [|[|n]]; [reflexivity|reflexivity|]. unfold linspace. now rewrite map_length, seq_length. Qed.
Lemma lines_at {A} (colours : list R) (f : nat -> nat -> A) nw ne : length colours = nw ->
  let ls := concat (map (fun cw => map (fun line => (fst cw, line)) (snd cw)) (combine colours (map (fun i => map (fun j => f i j) (seq 0 ne)) (seq 0 nw)))) in
  length ls = (nw * ne)%nat /\ forall w e, (w < nw)%nat -> (e < ne)%nat -> nth_error ls (w * ne + e) = option_map (fun x => (x, f w e)) (nth_error colours w).
Proof.
  intros L ls. assert (forall (cs : list R) a, let l := concat (map (fun cw => map (fun line => (fst cw, line)) (snd cw)) (combine cs (map (fun i => map (fun j => f i j) (seq 0 ne)) (seq a (length cs))))) in
    length l = (length cs * ne)%nat /\ forall w e, (w < length cs)%nat -> (e < ne)%nat -> nth_error l (w * ne + e) = option_map (fun x => (x, f (a + w)%nat e)) (nth_error cs w)) as G.
  { clear. induction cs as [|c cs IH]; intro a; [split; [reflexivity|intros; cbn in *; lia]|]. cbn [length seq map combine concat fst snd].
    destruct (IH (S a)) as [IL IN]. set (l := concat _) in *. split; [rewrite app_length, !map_length, seq_length, IL; lia|].
    assert (length (map (fun line : A => (c, line)) (map (fun j => f a j) (seq 0 ne))) = ne) as L0 by now rewrite !map_length, seq_length.
    intros [|w] e Hw He.
    - cbn [Nat.mul Nat.add nth_error option_map]. rewrite nth_error_app1 by lia. rewrite !nth_error_map.
      assert (nth_error (seq 0 ne) e = Some e) as ->. { rewrite (nth_error_nth' _ 0%nat) by now rewrite seq_length. now rewrite seq_nth. }
      cbn. now rewrite Nat.add_0_r.
    - rewrite nth_error_app2 by (rewrite L0; lia). rewrite L0. replace (S w * ne + e - ne)%nat with (w * ne + e)%nat by lia. rewrite IN by (cbn in *; lia).
      cbn [nth_error]. now replace (S a + w)%nat with (a + S w)%nat by lia. }
  specialize (G colours 0%nat). rewrite L in G. exact G.
Qed.

(** ** the trend plot *)
Lemma labels_inv pp letters keys : forall labels texs, labels_of pp letters keys labels = Ok texs -> length texs = length labels /\
  forall i l, nth_error labels i = Some l -> exists d, tex_labels pp letters keys = Ok d /\ nth_error texs i = Some (match dget d l with Some t => t | None => l end).
Proof.
  unfold labels_of. induction labels as [|l labels IH]; intros texs H; cbn [map_res] in H.
  - injection H as <-. split; [reflexivity|]. intros [|i]; discriminate.
  - destruct (tex_labels pp letters keys) as [d|] eqn:E; [|discriminate]. cbn [bind] in H. destruct (map_res _ labels) as [ts|] eqn:E2; [|discriminate]. cbn [bind] in H.
    injection H as <-. destruct (IH ts eq_refl) as [L N]. split; [cbn; now rewrite L|]. intros [|i] l0 Hi; cbn [nth_error] in Hi |- *; [injection Hi as <-; eauto|auto].
Qed.
Lemma map_res_inv {A B} (f : A -> res B) : forall l ys, map_res f l = Ok ys -> length ys = length l /\ forall i y, nth_error ys i = Some y -> exists x, nth_error l i = Some x /\ f x = Ok y.
Proof.
  induction l as [|x l IH]; intros ys H; cbn [map_res] in H; [injection H as <-; split; [reflexivity|]; intros [|i]; discriminate|].
  destruct (f x) as [y|] eqn:E; [|discriminate]. cbn [bind] in H. destruct (map_res f l) as [ys'|] eqn:E2; [|discriminate]. cbn [bind] in H. injection H as <-.
  destruct (IH ys' eq_refl) as [L N]. split; [cbn; now rewrite L|]. intros [|i] y0 Hi; cbn [nth_error] in *; [injection Hi as <-; eauto|auto].
Qed.
Lemma map_res_all {A B} (f : A -> res B) l : (forall x, In x l -> exists y, f x = Ok y) -> exists ys, map_res f l = Ok ys.
Proof.
  induction l as [|x l IH]; intro H; [now exists []|]. destruct (H x (or_introl eq_refl)) as [y E]. destruct IH as [ys E2]; [intros; apply H; now right|].
  cbn [map_res]. rewrite E. cbn [bind]. rewrite E2. cbn [bind]. eauto.
Qed.
Lemma labels_ok pp letters keys d labels : tex_labels pp letters keys = Ok d -> exists texs, labels_of pp letters keys labels = Ok texs /\ length texs = length labels.
Proof.
  intro E. destruct (map_res_all (fun l => do d <- tex_labels pp letters keys; Ok (match dget d l with Some t => t | None => l end)) labels) as [texs H]; [intros; rewrite E; cbn; eauto|].
  exists texs. split; [exact H|]. now apply labels_inv in H as [? _].
Qed.
Lemma np_unique_sorted l : StronglySorted slt (np_unique l).
Proof. unfold np_unique. induction l; cbn [fold_right]; [constructor|]. now apply s_insert_sorted. Qed.

Lemma nth_combine {A B} (l : list A) (l' : list B) : forall i p, nth_error (combine l l') i = Some p <-> nth_error l i = Some (fst p) /\ nth_error l' i = Some (snd p).
Proof.
  revert l'. induction l as [|x l IH]; intros [|y l'] [|i] [a b]; cbn; try (split; [discriminate|intros [? ?]; discriminate]); [|apply IH].
  split; [intro H; injection H as -> ->; auto|]. intros [H1 H2]. congruence.
Qed.
Lemma list_eq_nth {A} : forall (l l' : list A), (forall i, nth_error l i = nth_error l' i) -> l = l'.
Proof.
  induction l as [|x l IH]; intros [|y l'] H; auto; [discriminate (H 0%nat)|discriminate (H 0%nat)|].
  pose proof (H 0%nat) as H0. injection H0 as ->. f_equal. apply IH. intro i. exact (H (S i)).
Qed.

Lemma trend_shape pp letters keys vary chains nw ne pages : trend_plot pp letters keys vary chains nw ne = Ok pages ->
  map pg_param pages = np_unique (filter vary keys) /\
  forall p, In p pages -> trend_page chains nw ne (pg_param p) (pg_label p) = Ok p /\ exists d, tex_labels pp letters keys = Ok d /\ pg_label p = match dget d (pg_param p) with Some t => t | None => pg_param p end.
Proof.
  unfold trend_plot. set (labels := np_unique _). destruct (labels_of pp letters keys labels) as [texs|] eqn:EL; [|discriminate]. cbn [bind]. intro H.
  destruct (labels_inv _ _ _ _ _ EL) as [LL LN]. apply map_res_inv in H as [HL HN]. rewrite combine_length, LL, Nat.min_id in HL.
  assert (forall i p, nth_error pages i = Some p -> exists tex, nth_error labels i = Some (pg_param p) /\ nth_error texs i = Some tex /\ pg_label p = tex /\ trend_page chains nw ne (pg_param p) tex = Ok p) as K.
  { intros i p Hp. destruct (HN i p Hp) as ([l t] & Hc & Hpg). apply nth_combine in Hc as [C1 C2]. cbn [fst snd] in *. pose proof Hpg as Hq.
    apply page_inv in Hq as (flat & q & _ & _ & _ & Q). assert (pg_param p = l) as E1 by now rewrite Q. assert (pg_label p = t) as E2 by now rewrite Q. rewrite E1. exists t. auto. }
  split.
  - apply list_eq_nth. intro i. rewrite nth_error_map. destruct (nth_error pages i) as [p|] eqn:E.
    + destruct (K i p E) as (t & E1 & _). cbn. now rewrite E1.
    + cbn. symmetry. apply nth_error_None. apply nth_error_None in E. lia.
  - intros p Hp. apply In_nth_error in Hp as [i Hi]. destruct (K i p Hi) as (t & E1 & E2 & E3 & E4). rewrite E3. split; [exact E4|].
    destruct (LN i _ E1) as (d & D1 & D2). exists d. split; [exact D1|]. congruence.
Qed.

Section Trend.
Variables (tr : nat -> nat -> ens -> sample * list nat) (acor : list (list sample) -> list ext) (g : mcfg) (inits : list ens) (m : mstate) (df : list (list (option R) * option ext)).
Hypothesis Hshape : forall e c p, shaped g (fst (tr e c p)).
Hypothesis Hcheck : (2 <= g_check g)%nat.
Hypothesis Hens : (1 <= g_ensembles g)%nat.
Hypothesis Hthin : (1 <= g_thin g)%nat.
Hypothesis Hnw : (1 <= nw_of g)%nat.
Hypothesis Hinits : length inits = g_ensembles g.
Hypothesis Hrun : mcmc tr acor g inits None = Ok (m, df).

Lemma trend_lines chs j flat q : m_chains m = Some chs -> flat = map (cell j) df -> length flat = (nw_of g * g_ensembles g * q)%nat ->
  exists L, (1 <= L)%nat /\ (forall c, In c chs -> length c = L) /\ length chs = g_ensembles g /\ (L <= q * g_thin g)%nat /\ (nw_of g * g_ensembles g * (q * g_thin g - L) < g_thin g)%nat /\
  forall w e c, (w < nw_of g)%nat -> nth_error chs e = Some c ->
    path_of c w j ((w * g_ensembles g + e) * (q * g_thin g - L)) (g_thin g) (firstn q (skipn ((w * g_ensembles g + e) * q) flat)).
Proof.
  intros EC EF EL. destruct (run_table tr acor g inits m df Hshape Hcheck Hens Hthin Hinits Hrun) as (chs' & r & E1 & E2 & Hr & E3 & E4 & E5).
  rewrite EC in E1. injection E1 as <-. set (L := (r * g_check g)%nat) in *. assert (1 <= L)%nat as HL by (unfold L; nia). exists L. split; [exact HL|]. split; [exact E3|]. split; [exact E2|].
  assert (chs <> []) as NE by (intros ->; cbn in E2; lia). destruct (df_at g chs L NE E3 E4) as [D1 D2]. rewrite E2 in D1, D2.
  assert (forall i, (i < length flat)%nat <-> (i * g_thin g < nw_of g * g_ensembles g * L)%nat) as K.
  { intro i. rewrite EF, map_length, <- D1, <- !nth_error_Some, E5. reflexivity. }
  destruct (thin_count (nw_of g * g_ensembles g) L (g_thin g) (length flat)) as [T _]; [nia|exact HL|exact Hthin|exact K|].
  destruct (T q EL) as [T1 T2]. split; [exact T1|]. split; [exact T2|]. intros w e c Hw He i. set (b := (w * g_ensembles g + e)%nat). set (d := (q * g_thin g - L)%nat) in *.
  assert (e < g_ensembles g)%nat as Le by (rewrite <- E2; apply nth_error_Some; congruence). assert (b < nw_of g * g_ensembles g)%nat as Lb by (unfold b; nia).
  assert (length c = L) as Lc by (apply E3; eapply nth_error_In; eauto). assert (b * d + d <= nw_of g * g_ensembles g * d)%nat as Bd by nia.
  destruct (Nat.lt_ge_cases i q) as [Hi|Hi].
  - rewrite nth_firstn_skipn by exact Hi. rewrite EF, nth_error_map, E5. replace ((b * q + i) * g_thin g)%nat with (b * L + (b * d + i * g_thin g))%nat.
    2:{ assert (q * g_thin g = L + d)%nat as Q by (unfold d; lia). rewrite Nat.mul_add_distr_r, <- Nat.mul_assoc, Q. lia. }
    assert (b * d + i * g_thin g < L)%nat as Hs. { assert (i * g_thin g + g_thin g <= q * g_thin g)%nat by nia. unfold d in *. lia. }
    destruct (nth_error c (b * d + i * g_thin g)) as [x|] eqn:Ex; [|apply nth_error_None in Ex; lia]. unfold b at 1. rewrite (D2 w e c _ x Hw He Ex). cbn [option_map]. now rewrite cell_walker.
  - assert (nth_error c (b * d + i * g_thin g) = None) as -> by (apply nth_error_None; rewrite Lc; nia). apply nth_error_None. rewrite firstn_length. lia.
Qed.

Lemma trend_page_shows chs j chains p names : m_chains m = Some chs -> holds names df chains -> nth_error names j = Some (pg_param p) ->
  trend_page chains (nw_of g) (g_ensembles g) (pg_param p) (pg_label p) = Ok p ->
  page_shows (nw_of g) (g_thin g) chs j (fun o => (o < g_thin g)%nat) p /\ ((exists L, (forall c, In c chs -> length c = L) /\ Nat.divide (g_thin g) L) -> page_shows (nw_of g) (g_thin g) chs j (fun o => o = 0%nat) p).
Proof.
  intros EC HH HN HP. apply page_inv in HP as (flat & q & E1 & E2 & E3 & E4). rewrite (HH j _ HN) in E1. injection E1 as E1.
  destruct (trend_lines chs j flat q EC (eq_sym E1) E3) as (L & HL & LL & LE & T1 & T2 & P).
  destruct (lines_at (linspace (5 / 100) (95 / 100) (nw_of g)) (fun i j => firstn q (skipn ((i * g_ensembles g + j) * q) flat)) (nw_of g) (g_ensembles g) (linspace_length _ _ _)) as [A1 A2].
  set (ls := concat _) in *. assert (pg_lines p = ls) as EP by (rewrite E4; reflexivity).
  assert (forall from : nat -> Prop, (forall b, (b < nw_of g * g_ensembles g)%nat -> from (b * (q * g_thin g - L))%nat) -> page_shows (nw_of g) (g_thin g) chs j from p) as K.
  { intros from F. split; [rewrite EP, LE; exact A1|]. exists (linspace (5 / 100) (95 / 100) (nw_of g)). split; [apply linspace_grid|].
    intros w e c Hw He. assert (e < g_ensembles g)%nat as Le by (rewrite <- LE; apply nth_error_Some; congruence). eexists; eexists. split; [|split; [|apply (P w e c Hw He)]].
    - rewrite EP, LE. symmetry. apply A2; auto.
    - apply F. nia. }
  split; [apply K; intros b Hb; nia|]. intro H. apply K.
  - intros b Hb. destruct H as (L' & LL' & k & Dk). assert (L' = L) as ->. { assert (1 <= length chs)%nat as Q by lia. destruct chs as [|c cs]; [cbn in Q; lia|]. rewrite <- (LL c), <- (LL' c) by now left. reflexivity. }
    assert (q * g_thin g - L = 0)%nat as ->; [|lia]. set (n := (nw_of g * g_ensembles g)%nat) in *. assert (q * g_thin g - L < g_thin g)%nat as B by nia.
    rewrite Dk in *. rewrite <- Nat.mul_sub_distr_r in *. destruct (q - k)%nat; nia.
Qed.
End Trend.
