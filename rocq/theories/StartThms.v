(** The start of a run: where walkers are, whether they are spread, and a second run. *)
From Coq Require Import Reals String Ascii Arith Bool List Lia Lra.
From Verif Require Import Py PyFloat PyFacts Params ParamsProofs Likelihood LikeSpec LikeProofs Mcmc Start StartSpec StartProofs.
Import ListNotations.
Open Scope R_scope.

Theorem usual_ok k x : ~ begins "per" k \/ 0 < x -> exists s, usual k x s /\ 0 <= s /\ (s = 0 -> begins "per" k /\ x = 1 \/ begins "logper" k /\ x = 0).
Proof. intro H. destruct (usual_total k x H) as (s & U). exists s. exact (conj U (usual_pos k x s U)). Qed.
Theorem near v cache names nw ne u st P e l w p j k r x s : cache_fresh cache v -> named v names -> (forall j k r, free v names j k r -> exists x s, r_val r = Some x /\ scale_of k r s) ->
  start (v, cache) names nw ne u = (st, Ok P) -> nth_error P e = Some l -> nth_error l w = Some p -> free v names j k r -> r_val r = Some x -> scale_of k r s ->
  0 <= u e w j < 1 -> 0 <= s -> exists y, nth_error p j = Some (Some y) /\ x <= y <= x + s /\ (0 < s -> y < x + s).
Proof.
  intros CF NM SC E EP EL F X S U Z. destruct (starts v cache names nw ne u CF NM SC) as (v' & c & P' & E' & _ & H & _). rewrite E in E'. injection E' as _ <-.
  destruct (H e l EP) as [_ H1]. destruct (H1 w p EL) as [_ H2]. exists (x + u e w j * s). split; [exact (H2 j k r x s F X S)|].
  assert (0 <= u e w j * s) by (apply Rmult_le_pos; lra). assert (u e w j * s <= 1 * s) by (apply Rmult_le_compat_r; lra). split; [lra|]. intro P0. assert (u e w j * s < 1 * s) by (apply Rmult_lt_compat_r; lra). lra.
Qed.

(** a second run from where the first was started *)
Lemma chosen_again k r : chosen k (mkRow (r_val r) (r_vary r) (chosen k r) (r_lin r)) = chosen k r.
Proof.
  unfold chosen at 1. cbn [r_scale r_val]. destruct (zero_scale (chosen k r)) eqn:Z; [|reflexivity]. revert Z. unfold chosen. destruct (zero_scale (r_scale r)) eqn:Q; [reflexivity|congruence].
Qed.
Theorem again v cache names nw ne u st P : cache_fresh cache v -> named v names -> start (v, cache) names nw ne u = (st, Ok P) -> forall nw' ne' u', exists P',
  start st names nw' ne' u' = (st, Ok P') /\ snd (start (v, cache) names nw' ne' u') = Ok P'.
Proof.
  intros CF NM E nw' ne' u'. destruct (start_gen v cache names nw ne u CF NM) as (v' & xs & ss & E' & LX & LS & F & L' & FIX & VAR). rewrite E in E'. injection E' as -> ->.
  assert (map r_vary v' = map r_vary v) as MV.
  { apply nth_error_ext'. intro i. destruct (nth_error v i) as [r|] eqn:H.
    - rewrite (map_nth_error _ _ _ H). destruct (r_vary r) eqn:V; [destruct (NM i r H V) as (k & K); rewrite (map_nth_error _ _ _ (VAR i r k H V K)); cbn; congruence|]. rewrite (map_nth_error _ _ _ (FIX i r H V)). congruence.
    - transitivity (@None bool); [|symmetry]; apply nth_error_None; rewrite map_length; apply nth_error_None in H; lia. }
  assert (list_vary_params v' = list_vary_params v) as LV by (apply where_vary_flags; exact MV).
  assert (cache_fresh (Some (list_vary_params v)) v') as CF'. { right. now rewrite LV. }
  assert (forall i r', nth_error v' i = Some r' -> exists r, nth_error v i = Some r /\ r_vary r = r_vary r') as BACK.
  { intros i r' H. assert (nth_error (map r_vary v') i = Some (r_vary r')) as Q by exact (map_nth_error _ _ _ H). rewrite MV in Q. destruct (nth_error v i) as [r|] eqn:G.
    - rewrite (map_nth_error _ _ _ G) in Q. exists r. split; [reflexivity|now injection Q].
    - assert (nth_error (map r_vary v) i = None) as N by (apply nth_error_None; rewrite map_length; now apply nth_error_None). congruence. }
  assert (named v' names) as NM'. { intros i r' H V. destruct (BACK i r' H) as (r & G & Q). apply (NM i r G). congruence. }
  destruct (start_gen v' _ names nw' ne' u' CF' NM') as (v2 & xs2 & ss2 & E2 & LX2 & LS2 & F2 & L2 & FIX2 & VAR2). rewrite E2, LV.
  destruct (start_gen v cache names nw' ne' u' CF NM) as (v3 & xs3 & ss3 & E3 & LX3 & LS3 & F3 & _). rewrite E3.
  assert (NF : n_free v' = n_free v) by (rewrite <- !list_count; now rewrite LV).
  assert (FF : forall j, (j < n_free v)%nat -> exists k r, free v names j k r /\ free v' names j k (mkRow (r_val r) (r_vary r) (chosen k r) (r_lin r))).
  { intros j J. destruct (free_ex v names j NM J) as (k & r & FR). exists k, r. split; [exact FR|]. destruct FR as (i & G & V & K & C). exists i. split; [exact (VAR i r k G V K)|]. split; [exact V|]. split; [exact K|].
    rewrite <- C. clear -MV. assert (forall a b i, map r_vary a = map r_vary b -> length (filter r_vary (firstn i a)) = length (filter r_vary (firstn i b))) as H; [|exact (H _ _ i MV)].
    induction a as [|x a IH]; intros [|y b] n M; try discriminate; [reflexivity|]. cbn in M. injection M as A B. destruct n; [reflexivity|]. cbn. rewrite A. destruct (r_vary y); cbn; now rewrite (IH b n B). }
  assert (v2 = v') as ->.
  { apply nth_error_ext'. intro i. destruct (nth_error v' i) as [r'|] eqn:H; [|apply nth_error_None; apply nth_error_None in H; lia].
    destruct (BACK i r' H) as (r & G & Q). destruct (r_vary r) eqn:V.
    - destruct (NM i r G V) as (k & K). pose proof (VAR i r k G V K) as H1. rewrite H in H1. injection H1 as ->. rewrite (VAR2 i _ k H V K). cbn [r_val r_vary r_lin]. now rewrite chosen_again.
    - exact (FIX2 i r' H (eq_sym Q)). }
  assert (xs2 = xs3 /\ ss2 = ss3) as [-> ->].
  { split; apply nth_error_ext'; intro j.
    - destruct (Nat.lt_ge_cases j (n_free v)) as [J|J]; [|transitivity (@None (option R)); [|symmetry]; apply nth_error_None; lia].
      destruct (FF j J) as (k & r & A & B). now rewrite (proj1 (F3 j k r A)), (proj1 (F2 j k _ B)).
    - destruct (Nat.lt_ge_cases j (n_free v)) as [J|J]; [|transitivity (@None (option R)); [|symmetry]; apply nth_error_None; lia].
      destruct (FF j J) as (k & r & A & B). rewrite (proj2 (F3 j k r A)), (proj2 (F2 j k _ B)). now rewrite chosen_again. }
  rewrite NF. eexists. split; [reflexivity|reflexivity].
Qed.

(** whether walkers are spread *)
Lemma all_same x : forall l, (forall y, In y l -> y = x) -> rsum l = INR (length l) * x.
Proof.
  induction l as [|y l IH]; intro H; [cbn; lra|]. cbn [rsum fold_right length]. rewrite S_INR. unfold rsum in IH. rewrite IH by (intros z Z; apply H; now right). rewrite (H y (or_introl eq_refl)). ring.
Qed.
Lemma varies_iff l : varies l = true <-> exists a b, In a l /\ In b l /\ a <> b.
Proof.
  unfold varies. rewrite existsb_exists. split.
  - intros (x & I & N). destruct (Req_EM_T x (mean l)) as [|N0]; [discriminate|].
    assert ((forall y, In y l -> y = x) \/ exists y, In y l /\ y <> x) as [A|(y & Y & D)].
    { clear. induction l as [|z l [A|(y & Y & D)]]; [left; intros y []| |right; exists y; split; [now right|exact D]]. destruct (Req_EM_T z x) as [->|N]; [left; intros y [<-|Y]; auto|right; exists z; split; [now left|exact N]]. }
    + exfalso. apply N0. unfold mean. rewrite (all_same x l A). assert (0 < INR (length l)) by (apply lt_0_INR; destruct l; [destruct I|cbn; lia]). field. lra.
    + exists y, x. auto.
  - intros (a & b & A & B & D). destruct (Req_EM_T a (mean l)) as [E|N]; [exists b; split; [exact B|]; destruct (Req_EM_T b (mean l)); [congruence|reflexivity]|].
    exists a. split; [exact A|]. destruct (Req_EM_T a (mean l)); [contradiction|reflexivity].
Qed.
Lemma vals_some (f : nat -> R) l : vals (map (fun w => Some (f w)) l) = map f l.
Proof. unfold vals. rewrite flat_map_concat_map, map_map. induction l as [|w l IH]; [reflexivity|]. cbn. now rewrite IH. Qed.
Theorem spread v cache names nw ne u st P e l cond : cache_fresh cache v -> named v names -> (forall j k r, free v names j k r -> exists x s, r_val r = Some x /\ scale_of k r s) ->
  start (v, cache) names nw ne u = (st, Ok P) -> nth_error P e = Some l ->
  first_sample cond l = Ok tt <->
  (forall j k r s, free v names j k r -> scale_of k r s -> s <> 0) /\
  (forall j, (j < n_free v)%nat -> exists w w', (w < length l)%nat /\ (w' < length l)%nat /\ u e w j <> u e w' j) /\ cond l = true.
Proof.
  intros CF NM SC E EP. destruct (starts v cache names nw ne u CF NM SC) as (v' & c & P' & E' & _ & H & _). rewrite E in E'. injection E' as _ <-. destruct (H e l EP) as [LL H1].
  assert (FA : finite_all l = true).
  { apply forallb_forall. intros p I. apply In_nth_error in I as (w & W). destruct (H1 w p W) as [LP H2]. apply forallb_forall. intros y Y. apply In_nth_error in Y as (j & J).
    assert (j < n_free v)%nat as JL by (rewrite <- LP; apply nth_error_Some; congruence). destruct (free_ex v names j NM JL) as (k & r & FR). destruct (SC j k r FR) as (x & s & X & S). rewrite (H2 j k r x s FR X S) in J. now injection J as <-. }
  assert (HD : (0 < n_free v)%nat -> length (hd [] l) = n_free v).
  { intro N. destruct l as [|p l]; [cbn in LL; lia|]. exact (proj1 (H1 0%nat p eq_refl)). }
  assert (COL : forall j k r x s, free v names j k r -> r_val r = Some x -> scale_of k r s -> vals (column l j) = map (fun w => x + u e w j * s) (seq 0 (length l))).
  { intros j k r x s FR X S. rewrite <- vals_some. f_equal. unfold column. apply nth_error_ext'. intro w. destruct (nth_error l w) as [p|] eqn:W.
    - rewrite (map_nth_error _ _ _ W). assert (w < length l)%nat as WL by (apply nth_error_Some; congruence).
      assert (nth_error (seq 0 (length l)) w = Some w) as SW by (rewrite (nth_error_nth' _ 0%nat) by (now rewrite seq_length); now rewrite seq_nth). rewrite (map_nth_error _ _ _ SW). f_equal. apply nth_error_nth. destruct (H1 w p W) as [_ H2]. now apply (H2 j k r x s).
    - transitivity (@None (option R)); [|symmetry]; apply nth_error_None; apply nth_error_None in W; rewrite map_length; [exact W|now rewrite seq_length]. }
  assert (VAR : forall j k r x s, free v names j k r -> r_val r = Some x -> scale_of k r s -> varies (vals (column l j)) = true <-> s <> 0 /\ exists w w', (w < length l)%nat /\ (w' < length l)%nat /\ u e w j <> u e w' j).
  { intros j k r x s FR X S. rewrite (COL j k r x s FR X S), varies_iff. split.
    - intros (a & b & A & B & D). apply in_map_iff in A as (w & <- & W). apply in_map_iff in B as (w' & <- & W'). apply in_seq in W, W'. split; [intros ->; apply D; ring|]. exists w, w'. split; [lia|split; [lia|]]. intro Q. apply D. now rewrite Q.
    - intros (N & w & w' & W & W' & D). exists (x + u e w j * s), (x + u e w' j * s). split; [apply in_map_iff; exists w; split; [reflexivity|apply in_seq; lia]|]. split; [apply in_map_iff; exists w'; split; [reflexivity|apply in_seq; lia]|].
      intro Q. apply D. apply (Rmult_eq_reg_r s); [lra|exact N]. }
  unfold first_sample, independent. rewrite FA. cbn [andb]. split.
  - destruct (forallb _ _ && cond l) eqn:B; [|discriminate]. intros _. apply andb_true_iff in B as [B C]. split; [|split; [|exact C]].
    + intros j k r s FR S. destruct (SC j k r FR) as (x & _ & X & _). apply (VAR j k r x s FR X S). rewrite forallb_forall in B. apply B. apply in_seq. pose proof (free_lt _ _ _ _ _ FR). rewrite HD by lia. lia.
    + intros j J. destruct (free_ex v names j NM J) as (k & r & FR). destruct (SC j k r FR) as (x & s & X & S). apply (VAR j k r x s FR X S). rewrite forallb_forall in B. apply B. apply in_seq. rewrite HD by lia. lia.
  - intros (A & B & ->). assert (forallb (fun j => varies (vals (column l j))) (seq 0 (length (hd [] l))) = true) as ->; [|reflexivity]. apply forallb_forall. intros j J. apply in_seq in J.
    assert (j < n_free v)%nat as JL. { destruct l as [|p l]; [cbn in J; lia|]. cbn in J. rewrite (proj1 (H1 0%nat p eq_refl)) in J. lia. }
    destruct (free_ex v names j NM JL) as (k & r & FR). destruct (SC j k r FR) as (x & s & X & S). apply (VAR j k r x s FR X S). split; [exact (A j k r s FR S)|exact (B j JL)].
Qed.

(** a period of one day *)
Lemma stuck_chosen k r : stuck k r -> exists x, r_val r = Some x /\ (chosen k r = None \/ chosen k r = Some 0).
Proof.
  intros (Z & x & X & D). exists x. split; [exact X|]. unfold chosen. rewrite Z, X. cbn [zero_scale]. destruct (Req_EM_T 0 0); [|contradiction]. unfold usual_scale. destruct D as [[B D]|[B ->]].
  - rewrite (proj2 (begins_iff _ _) B). destruct (Rlt_dec 0 x) as [P|P]; [|now left]. right. destruct D as [D|D]; [lra|]. subst x. unfold log10. rewrite ln_1. replace (1 * (1 / 100000) * (0 / ln 10)) with 0 by (unfold Rdiv; ring). now rewrite Rabs_R0.
  - rewrite (not_both "logper" "per" k B) by discriminate. rewrite (proj2 (begins_iff _ _) B). right. rewrite Rmult_0_r. now rewrite Rabs_R0.
Qed.
Theorem not_spread v cache names nw ne u j k r : cache_fresh cache v -> named v names -> free v names j k r -> stuck k r ->
  exists st P, start (v, cache) names nw ne u = (st, Ok P) /\ length P = ne /\ forall cond l, In l P -> first_sample cond l = Err ValueError.
Proof.
  intros CF NM FR ST. destruct (start_gen v cache names nw ne u CF NM) as (v' & xs & ss & E & LX & LS & F & _). eexists. eexists. split; [exact E|]. split; [now rewrite map_length, seq_length|].
  intros cond l I. apply in_map_iff in I as (e & <- & _). destruct (F j k r FR) as [A B]. destruct (stuck_chosen k r ST) as (x & X & C). rewrite X in A. set (W := walkers nw (n_free v)).
  pose proof (free_lt _ _ _ _ _ FR) as JL. assert (0 < W)%nat as WP by (unfold W; rewrite walkers_max; lia).
  unfold first_sample, independent. destruct C as [C|C]; rewrite C in B.
  - assert (finite_all (ensemble xs ss W (u e)) = false) as ->; [|reflexivity]. destruct (finite_all _) eqn:FA; [|reflexivity]. exfalso. unfold finite_all in FA. rewrite forallb_forall in FA.
    assert (In (offsets xs ss (u e 0%nat) 0) (ensemble xs ss W (u e))) as I by (apply in_map_iff; exists 0%nat; split; [reflexivity|apply in_seq; lia]). specialize (FA _ I). rewrite forallb_forall in FA.
    pose proof (nth_offsets _ _ (u e 0%nat) 0 _ _ _ A B) as N. apply nth_error_In in N. specialize (FA _ N). discriminate FA.
  - assert (forallb (fun j => varies (vals (column (ensemble xs ss W (u e)) j))) (seq 0 (length (hd [] (ensemble xs ss W (u e))))) = false) as Q; [|rewrite Q, andb_false_r; reflexivity].
    destruct (forallb _ _) eqn:FA; [|reflexivity]. exfalso. rewrite forallb_forall in FA.
    assert (length (hd [] (ensemble xs ss W (u e))) = n_free v) as HL. { destruct W as [|n]; [lia|]. cbn. rewrite length_offsets; congruence. }
    assert (In j (seq 0 (length (hd [] (ensemble xs ss W (u e)))))) as J by (apply in_seq; lia). specialize (FA j J). apply varies_iff in FA as (a & b & IA & IB & D). apply D.
    assert (forall y, In y (vals (column (ensemble xs ss W (u e)) j)) -> y = x) as ALL; [|rewrite (ALL a IA), (ALL b IB); reflexivity].
    intros y Y. unfold vals in Y. apply in_flat_map in Y as (o & O & Y). unfold column, ensemble in O. rewrite map_map in O. apply in_map_iff in O as (w & <- & _). rewrite (nth_error_nth _ _ _ (nth_offsets _ _ (u e w) 0 _ _ _ A B)) in Y. cbn in Y. destruct Y as [Y|[]]. lra.
Qed.

(** a value changed between two runs *)
Theorem stale x y nw u : x <> 0 -> exists st, fst (start ([mkRow (Some x) true (Some 0) false], None) ["k1"%string] nw 1 u) = st /\
  snd (start (setval (fst st) 0 (Some y), snd st) ["k1"%string] nw 1 u) = Ok [map (fun w => [Some (y + u 0%nat w 0%nat * (Rabs x / 10))]) (seq 0 (Nat.max nw 2))].
Proof.
  intro N. assert (usual_scale "k1" (Some x) = Some (Rabs x / 10)) as U. { apply usual_fun. apply UOther; [|exact N]. intros p I [r B]. cbn in I. intuition subst; discriminate. }
  eexists. split; [reflexivity|]. unfold start. cbn [get_vary_params name_vary_params list_vary_params where_vary map_res nth_error bind fst snd pscales r_scale r_val r_vary].
  assert (zero_scale (Some 0) = true) as Z by (cbn; destruct (Req_EM_T 0 0); [reflexivity|contradiction]). cbn [r_vary where_vary map_res nth_error bind fst snd pscales]. rewrite Z. rewrite U. cbn [setscale nth_error list_upd fst snd setval get_vary_params name_vary_params map_res bind r_val pscales r_scale r_vary r_lin].
  assert (zero_scale (Some (Rabs x / 10)) = false) as Z2. { cbn. apply Rabs_pos_lt in N. destruct (Req_EM_T (Rabs x / 10) 0); [lra|reflexivity]. } rewrite Z2. cbn [fst snd bind length seq map]. unfold ensemble. cbn [offsets opt_add]. rewrite walkers_max. reflexivity.
Qed.
(** an eccentricity beyond one *)
Theorem beyond u nw : u 0%nat 0%nat 0%nat = 9 / 10 -> exists st l p y, start ([mkRow (Some (19 / 20)) true (Some 0) false], None) ["e1"%string] nw 1 u = (st, Ok [l]) /\ In p l /\ nth_error p 0 = Some (Some y) /\ 1 < y.
Proof.
  intro H. assert (usual_scale "e1" (Some (19 / 20)) = Some (Rabs (19 / 20) / 10)) as U. { apply usual_fun. apply UOther; [|lra]. intros p I [r B]. cbn in I. intuition subst; discriminate. }
  assert (zero_scale (Some 0) = true) as Z by (cbn; destruct (Req_EM_T 0 0); [reflexivity|contradiction]).
  unfold start. cbn [get_vary_params name_vary_params list_vary_params where_vary map_res nth_error bind fst snd pscales r_scale r_val r_vary]. rewrite Z, U. cbn [fst snd bind length seq map]. unfold ensemble. cbn [offsets opt_add]. rewrite walkers_max.
  eexists. eexists. exists [Some (19 / 20 + u 0%nat 0%nat 0%nat * (Rabs (19 / 20) / 10))]. eexists. split; [reflexivity|]. split; [apply in_map_iff; exists 0%nat; split; [reflexivity|apply in_seq; lia]|]. split; [reflexivity|]. rewrite H, Rabs_pos_eq by lra. lra.
Qed.
