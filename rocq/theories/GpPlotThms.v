(** Proofs about the panels of a fit with Gaussian processes (C78). *)
From Coq Require Import Reals String Arith Bool Lra Lia List.
From Verif Require Import Py PyFacts PyFloat Params Kepler Basis RVModel Likelihood Stats FastBinSpec TelPlot TelPlotSpec TelPlotProofs TelPlotThms BintelsProofs Panels PanelSpec PanelProofs PanelThms PanelMade GpPlot GpPlotSpec.
Import ListNotations.
Open Scope R_scope.

(** ** tables *)
Lemma each_len {A B} (F : member -> R * R * R -> A) (G : member -> R * R * R -> B) ms : length (each F ms) = length (each G ms).
Proof. unfold each. induction ms as [|m ms IH]; [reflexivity|]. cbn. now rewrite !app_length, !map_length, IH. Qed.
Lemma each_ext {A} (F G : member -> R * R * R -> A) ms : (forall m r, In m ms -> In r (gm_rows m) -> F m r = G m r) -> each F ms = each G ms.
Proof.
  unfold each. induction ms as [|m ms IH]; intro H; [reflexivity|]. cbn. rewrite IH by (intros; apply H; auto; now right). f_equal. apply map_ext_in. intros r Hr. apply H; auto. now left.
Qed.
Lemma each_map2 (op : R -> R -> R) F G ms : map2 op (each F ms) (each G ms) = each (fun m r => op (F m r) (G m r)) ms.
Proof.
  unfold each. induction ms as [|m ms IH]; [reflexivity|]. cbn. rewrite map2_app by now rewrite !map_length. rewrite IH. f_equal. apply map2_maps.
Qed.
Lemma each_map {A B} (h : A -> B) F ms : map h (each F ms) = each (fun m r => h (F m r)) ms.
Proof. unfold each. induction ms as [|m ms IH]; [reflexivity|]. cbn. now rewrite map_app, map_map, IH. Qed.
Lemma tels_in ms t : In t (all_tels ms) -> In t (map gm_tel ms).
Proof.
  unfold all_tels, each. induction ms as [|m ms IH]; [easy|]. cbn. rewrite in_app_iff. intros [H|H]; [|auto]. apply in_map_iff in H as (_ & H & _). now left.
Qed.

(** ** adding a mean *)
Lemma add_other {A} t s (l : list A) (F : A -> R) tel a m : t <> s -> add_at (map (fun _ => t) l ++ tel) s (map F l ++ a) m = (map F l ++ add_at tel s a m)%list.
Proof. intro N. induction l as [|x l IH]; [reflexivity|]. cbn. apply String.eqb_neq in N. rewrite N. now rewrite IH. Qed.
Lemma add_own {A} t (l : list A) (F G : A -> R) tel a : add_at (map (fun _ => t) l ++ tel) t (map F l ++ a) (map G l) = (map (fun x => F x + G x) l ++ add_at tel t a [])%list.
Proof. induction l as [|x l IH]; [reflexivity|]. cbn. rewrite String.eqb_refl. now rewrite IH. Qed.
Lemma add_none s : forall tel a m, ~ In s tel -> add_at tel s a m = a.
Proof.
  induction tel as [|t tel IH]; intros [|x a] m H; try reflexivity. cbn. destruct (String.eqb_spec t s) as [->|N]; [exfalso; apply H; now left|]. rewrite IH; [reflexivity|]. intro; apply H; now right.
Qed.
Lemma count_none s tel : ~ In s tel -> filter (String.eqb s) tel = [].
Proof.
  induction tel as [|t tel IH]; intro H; [reflexivity|]. cbn. destruct (String.eqb_spec s t) as [->|N]; [exfalso; apply H; now left|]. apply IH. intro; apply H; now right.
Qed.
Lemma count_const {A} s t (l : list A) : filter (String.eqb s) (map (fun _ => t) l) = if String.eqb s t then map (fun _ => t) l else [].
Proof. induction l as [|x l IH]; cbn; [now destruct (String.eqb s t)|]. rewrite IH. now destruct (String.eqb s t). Qed.

Lemma bump_member ms m F (G : R * R * R -> R) : NoDup (map gm_tel ms) -> In m ms ->
  bump (all_tels ms) (gm_tel m) (each F ms) (map G (gm_rows m)) = Ok (each (fun m' r => F m' r + if String.eqb (gm_tel m') (gm_tel m) then G r else 0) ms).
Proof.
  intros ND Hm. unfold bump.
  assert (length (filter (String.eqb (gm_tel m)) (all_tels ms)) = length (gm_rows m) /\
    add_at (all_tels ms) (gm_tel m) (each F ms) (map G (gm_rows m)) = each (fun m' r => F m' r + if String.eqb (gm_tel m') (gm_tel m) then G r else 0) ms) as [C A].
  { induction ms as [|m0 ms IH]; [easy|]. cbn [map] in ND. inversion ND as [|? ? N1 N2]; subst.
    unfold all_tels, each in *. cbn [map concat]. rewrite filter_app, app_length, count_const. destruct Hm as [->|Hm].
    - rewrite String.eqb_refl. rewrite map_length. rewrite count_none by (intro Q; now apply (tels_in ms) in Q). rewrite add_own, add_none by (intro Q; now apply (tels_in ms) in Q).
      split; [cbn; lia|]. f_equal. f_equal. apply map_ext_in. intros m' Hm'. apply map_ext. intro r.
      destruct (String.eqb_spec (gm_tel m') (gm_tel m)) as [Q|_]; [|lra]. exfalso. apply N1. rewrite <- Q. now apply in_map.
    - assert (gm_tel m0 <> gm_tel m) as NE by (intro Q; apply N1; rewrite Q; now apply in_map).
      assert (String.eqb (gm_tel m) (gm_tel m0) = false) as -> by (apply String.eqb_neq; congruence). rewrite add_other by exact NE. destruct (IH N2 Hm) as [I1 I2]. rewrite I1, I2. split; [reflexivity|].
      f_equal. apply map_ext. intro r. apply String.eqb_neq in NE. rewrite NE. lra. }
  rewrite C, map_length, Nat.eqb_refl. now rewrite A.
Qed.

Lemma by_tel ms m m' : NoDup (map gm_tel ms) -> In m ms -> In m' ms -> gm_tel m' = gm_tel m -> m' = m.
Proof.
  induction ms as [|a ms IH]; intros ND H H' Q; [easy|]. inversion ND as [|? ? N1 N2]; subst. destruct H as [<-|H], H' as [<-|H']; auto; exfalso; apply N1.
  - rewrite <- Q. now apply in_map.
  - rewrite Q. now apply in_map.
Qed.

Section Draw.
  Variables (ms : list member) (f : R -> R) (orbit : list R -> res (list R)) (opt : gopt).

  (** what is added for a member *)
  Definition added (m m' : member) (r : R * R * R) : R := if o_mean opt then 0 else if String.eqb (gm_tel m') (gm_tel m) then mean_of m' (time r) else 0.

  Lemma epoch_kept x mt ep : ep <> 0 -> exists plt mplt, shown_times x mt ep = (ep, plt, mplt).
  Proof. intro N. unfold shown_times. destruct (existsb _ _); [eauto|]. destruct (reqb ep 0) eqn:Q; [apply reqb_true in Q; contradiction|eauto]. Qed.

  Section One.
    Variables (d : R) (st : gpplot).
    Hypothesis ND : NoDup (map gm_tel ms).
    Hypothesis HR : forall m, In m ms -> gm_rows m <> [].
    Hypothesis HO : forall xs, orbit xs = Ok (map f xs).
    Hypothesis HT : gp_tel st = all_tels ms.
    Hypothesis HC : exists mt, gp_mplt st = map (fun t => t - d) mt /\ gp_model st = map f mt.
    Hypothesis HE : gp_epoch st <> 0.
    Variables (m : member) (l : plike).
    Hypothesis Hm : In m ms.
    Hypothesis Hl : stands_for m l.

    Lemma times_of : exists ts, band_times st l = Ok ts /\ band_grid st m ts.
    Proof.
      unfold band_times, band_grid. destruct (gp_xlim st) as [[a b]|]; [eexists; split; [reflexivity|apply linspace_grid]|].
      destruct Hl as (_ & X & _). rewrite X. assert (map time (gm_rows m) <> []) as N by (intro Q; apply map_eq_nil in Q; now apply (HR m Hm)).
      destruct (map time (gm_rows m)) as [|t ts] eqn:E; [easy|]. rewrite <- E in *. destruct (extremes _ N) as [A B].
      eexists; split; [reflexivity|]. do 2 eexists. split; [exact A|]. split; [exact B|apply linspace_grid].
    Qed.

    Lemma band_pts (xs : list R) (c s : R -> R) dd : combine (combine (map (fun t => t - dd) xs) (combine (map2 Rminus (map c xs) (map s xs)) (map2 Rplus (map c xs) (map s xs)))) (map c xs)
      = map (fun t => (t - dd, (c t - s t, c t + s t), c t)) xs.
    Proof. rewrite !map2_maps, combine_maps, combine_maps, combine_maps. reflexivity. Qed.

    Lemma like_inv fm G ci ep om ci' g : plot_gp_like orbit opt st fm l (each G ms) ci = Ok (ep, om, ci', g) ->
      ep = gp_epoch st /\ om = each (fun m' r => G m' r + added m m' r) ms /\ depicts opt f st m g.
    Proof.
      unfold plot_gp_like. pose proof Hl as (S1 & S2 & S3). unfold depicts. destruct (gm_gp m) as [[mu sd]|] eqn:EG.
      - destruct S3 as (p & S3 & S4). rewrite S3. destruct times_of as (ts & -> & BG). cbn [bind]. rewrite S4. cbn [bind].
        assert ((if o_orbit opt then Ok (map (fun _ => 0) ts) else orbit ts) = Ok (map (fun t => if o_orbit opt then 0 else f t) ts)) as ->
          by (rewrite HO; now destruct (o_orbit opt)).
        cbn [bind]. destruct (epoch_kept ts [] _ HE) as (plt & mplt & SE). rewrite SE. destruct (shown_shift _ _ _ _ _ _ SE) as (dd & SH & -> & _).
        rewrite S2, S4. cbn [bind]. rewrite map_map. rewrite HT, S1. rewrite (bump_member ms m G (fun r => mu (time r)) ND Hm). cbn [bind].
        assert ((if o_mean opt then Ok (map (fun _ : R => 0) ts, each G ms) else Ok (map mu ts, each (fun m' r => G m' r + (if String.eqb (gm_tel m') (gm_tel m) then mu (time r) else 0)) ms))
          = Ok (map (fun t => if o_mean opt then 0 else mu t) ts, each (fun m' r => G m' r + added m m' r) ms)) as ->.
        { unfold added. destruct (o_mean opt).
          - f_equal. f_equal. apply each_ext. intros; lra.
          - f_equal. f_equal. apply each_ext. intros m' r Hm' Hr. destruct (String.eqb_spec (gm_tel m') (gm_tel m)) as [Q|_]; [|reflexivity].
            rewrite (by_tel ms m m' ND Hm Hm' Q). unfold mean_of. now rewrite EG. }
        cbn [bind]. destruct (band_color _ _ _) as [[c ci1]|]; [|discriminate]. cbn [bind]. destruct (o_parts opt && o_mean opt)%bool eqn:PM; [discriminate|].
        intro Q. injection Q as <- <- <- <-. split; [reflexivity|]. split; [reflexivity|]. exists c, ts, dd. eexists. split; [exact BG|]. split; [exact SH|].
        rewrite map2_maps, band_pts. split; [reflexivity|]. destruct (o_parts opt); split; try discriminate; try reflexivity. intros _. cbn [andb] in PM. rewrite PM.
        now rewrite !combine_maps.
      - rewrite S3. intro Q. injection Q as <- <- <- <-. split; [reflexivity|]. split.
        + apply each_ext. intros m' r Hm' Hr. unfold added. destruct (o_mean opt); [lra|]. destruct (String.eqb_spec (gm_tel m') (gm_tel m)) as [Q|_]; [|lra].
          rewrite (by_tel ms m m' ND Hm Hm' Q). unfold mean_of. rewrite EG. lra.
        + eexists. rewrite S1. split; [reflexivity|]. intros _. destruct HC as (mt & C1 & C2). exists mt, d. rewrite C1, C2. split; [apply combine_maps|reflexivity].
    Qed.

    (** colours *)
    Definition wants_colour (fm : dict fmt) : bool := match gm_gp m with None => false | Some _ => match dget fm (gm_tel m) with Some _ => false | None => negb (dmem telfmts_default (gm_tel m)) end end.
    Lemma band_color_of fm ci c ci' : band_color fm (gm_tel m) ci = Ok (c, ci') ->
      (forall v, wrote fm (gm_tel m) "color" v -> c = v) /\ (forall n v, no_format fm (gm_tel m) -> known (gm_tel m) n v -> c = v).
    Proof.
      unfold band_color, no_format, wrote. destruct (dget fm (gm_tel m)) as [g|] eqn:E; intro H; (split; [|]).
      - intros v (f0 & Q & V). injection Q as <-. unfold dget_res in H. rewrite V in H. cbn in H. congruence.
      - intros n v N. exfalso. apply N. eapply dget_key. exact E.
      - intros v (f0 & Q & _). discriminate.
      - intros n v _ K. destruct (known_table (gm_tel m)) as [(d0 & n' & c' & Ed & _ & _ & Lc & _ & U)|[_ U]]; [|exfalso; exact (U n v K)]. rewrite Ed in H.
        unfold dget_res in H. rewrite Lc in H. cbn in H. destruct (U n v K) as [_ ->]. congruence.
    Qed.
    Lemma like_colour fm om ci ep om' ci' g c : plot_gp_like orbit opt st fm l om ci = Ok (ep, om', ci', g) -> colour_of g = Some c ->
      (forall v, wrote fm (gm_tel m) "color" v -> c = v) /\ (forall n v, no_format fm (gm_tel m) -> known (gm_tel m) n v -> c = v).
    Proof.
      unfold plot_gp_like. pose proof Hl as (S1 & _). destruct (pl_predict l) as [p|]; [|intro H; injection H as <- <- <- <-; discriminate].
      destruct (band_times st l) as [ts|]; [|discriminate]. cbn [bind]. destruct (p ts) as [[mu sd]|]; [|discriminate]. cbn [bind].
      destruct (if o_orbit opt then _ else _) as [gom|]; [|discriminate]. cbn [bind]. destruct (shown_times _ _ _) as [[e1 xs] ys].
      destruct (if o_mean opt then _ else _) as [[mu1 om1]|]; [|discriminate]. cbn [bind]. rewrite S1. destruct (band_color _ _ _) as [[c1 ci1]|] eqn:EC; [|discriminate]. cbn [bind].
      destruct (_ && _)%bool; [discriminate|]. intros H Q. injection H as <- <- <- <-. injection Q as <-. now apply band_color_of in EC.
    Qed.
    Lemma like_ok fm G ci : (o_parts opt && o_mean opt = false)%bool -> (gm_gp m <> None -> no_format fm (gm_tel m) \/ exists c, wrote fm (gm_tel m) "color" c) ->
      (wants_colour fm = true -> (ci < 9)%nat) ->
      exists ep om g, plot_gp_like orbit opt st fm l (each G ms) ci = Ok (ep, om, if wants_colour fm then S ci else ci, g).
    Proof.
      intros PM BC LT. unfold plot_gp_like, wants_colour in *. pose proof Hl as (S1 & S2 & S3). destruct (gm_gp m) as [[mu sd]|] eqn:EG; [|rewrite S3; eauto].
      destruct S3 as (p & S3 & S4). rewrite S3. destruct times_of as (ts & -> & BG). cbn [bind]. rewrite S4. cbn [bind].
      assert ((if o_orbit opt then Ok (map (fun _ => 0) ts) else orbit ts) = Ok (map (fun t => if o_orbit opt then 0 else f t) ts)) as ->
        by (rewrite HO; now destruct (o_orbit opt)).
      cbn [bind]. destruct (shown_times _ _ _) as [[e1 xs] ys]. rewrite S2, S4. cbn [bind]. rewrite map_map. rewrite HT, S1. rewrite (bump_member ms m G (fun r => mu (time r)) ND Hm). cbn [bind].
      assert (exists c, band_color fm (gm_tel m) ci = Ok (c, if match dget fm (gm_tel m) with Some _ => false | None => negb (dmem telfmts_default (gm_tel m)) end then S ci else ci)) as (c & ->).
      { unfold band_color. destruct (BC ltac:(discriminate)) as [N|(c & g0 & E0 & E1)].
        - apply dget_none in N. rewrite N in *. unfold dmem in *. destruct (known_table (gm_tel m)) as [(d0 & n' & c' & Ed & _ & _ & Lc & _)|[Ed _]]; rewrite Ed in *.
          + unfold dget_res. rewrite Lc. cbn. eauto.
          + specialize (LT eq_refl). unfold color_at. destruct (nth_error default_colors ci) as [c|] eqn:Ec; [cbn; eauto|]. apply nth_error_None in Ec. cbn in Ec. lia.
        - rewrite E0. unfold dget_res. rewrite E1. cbn. eauto. }
      destruct (o_mean opt); cbn [bind]; rewrite PM; eauto.
    Qed.
  End One.

  Lemma kept_epoch st : with_rvmod st (gp_rvmod st) (gp_epoch st) = st.
  Proof. now destruct st. Qed.

  Definition coloured (fm : dict fmt) (m : member) (g : drawing) : Prop := forall c, colour_of g = Some c ->
    (forall v, wrote fm (gm_tel m) "color" v -> c = v) /\ (forall n v, no_format fm (gm_tel m) -> known (gm_tel m) n v -> c = v).

  (** states that differ in the model of the data only *)
  Record like_made (d : R) (G : member -> R * R * R -> R) (st : gpplot) : Prop := {
    lm_tels : NoDup (map gm_tel ms);
    lm_rows : forall m, In m ms -> gm_rows m <> [];
    lm_likes : Forall2 stands_for ms (gp_likes st);
    lm_orbit : forall xs, orbit xs = Ok (map f xs);
    lm_tel : gp_tel st = all_tels ms;
    lm_raw : gp_raw st = each (fun m r => vel r - gm_off m - f (time r) - mean_of m (time r)) ms;
    lm_rvmod : gp_rvmod st = each G ms;
    lm_err : gp_err st = bars ms;
    lm_plt : gp_plt st = map (fun t => t - d) (all_times ms);
    lm_curve : exists mt, gp_mplt st = map (fun t => t - d) mt /\ gp_model st = map f mt;
    lm_epoch : gp_epoch st <> 0 }.
  Lemma made_like d st : made_of ms f orbit d st -> like_made d (fun m r => f (time r)) st.
  Proof. intros []. constructor; auto. Qed.
  Lemma like_after d G st om G' : like_made d G st -> om = each G' ms -> like_made d (if o_orbit opt then G else G') (after opt st (gp_epoch st) om).
  Proof. intros [] ->. constructor; auto. cbn. now destruct (o_orbit opt). Qed.
  Lemma like_depicts d G st epoch rv m g : like_made d G st -> depicts opt f (with_rvmod st rv epoch) m g -> epoch = gp_epoch st -> depicts opt f st m g.
  Proof. intros H D ->. exact D. Qed.

  Lemma draw_inv d G0 st fm : like_made d G0 st -> forall ms2 ls, Forall2 stands_for ms2 ls -> incl ms2 ms -> forall G ci ep om gs,
    draw_all orbit opt st fm ls (gp_epoch st) (each G ms) ci = Ok (ep, om, gs) ->
    ep = gp_epoch st /\ om = each (fun m' r => G m' r + rsum (map (fun m => added m m' r) ms2)) ms /\ Forall2 (depicts opt f st) ms2 gs /\ Forall2 (coloured fm) ms2 gs.
  Proof.
    intros LM ms2 ls F2. pose proof LM as []. induction F2 as [|m l ms2 ls SF F2 IH]; intros I G ci ep om gs H; cbn [draw_all] in H.
    - injection H as <- <- <-. split; [reflexivity|]. split; [|split; constructor]. apply each_ext. intros. unfold rsum. cbn. lra.
    - rewrite kept_epoch in H. destruct (plot_gp_like _ _ _ _ _ _ _) as [[[[e1 om1] ci1] g]|] eqn:E1; [|discriminate]. cbn [bind] in H.
      destruct (draw_all _ _ _ _ _ _ _ _) as [[[e2 om2] gs2]|] eqn:E2; [|discriminate]. cbn [bind] in H. injection H as <- <- <-.
      assert (In m ms) as Hm by (apply I; now left). pose proof E1 as E1'.
      apply (like_inv d st lm_tels0 lm_rows0 lm_orbit0 lm_tel0 lm_curve0 lm_epoch0 m l Hm SF) in E1 as (-> & -> & D).
      apply IH in E2 as (-> & -> & Ds & Cs); [|intros x Hx; apply I; now right]. split; [reflexivity|]. split; [|split; constructor; auto].
      + apply each_ext. intros. rewrite map_cons, rsum_cons. lra.
      + intros c Hc. eapply like_colour; eauto.
  Qed.

  Lemma added_sum : NoDup (map gm_tel ms) -> forall ms2 m' r, NoDup (map gm_tel ms2) -> incl ms2 ms -> In m' ms ->
    (o_mean opt = true -> rsum (map (fun m => added m m' r) ms2) = 0) /\
    (o_mean opt = false -> In m' ms2 -> rsum (map (fun m => added m m' r) ms2) = mean_of m' (time r)) /\
    (o_mean opt = false -> ~ In m' ms2 -> rsum (map (fun m => added m m' r) ms2) = 0).
  Proof.
    intros ND ms2 m' r. unfold added. destruct (o_mean opt).
    - intros _ _ _. split; [|split; discriminate]. intros _. induction ms2 as [|m ms2 IH]; [reflexivity|]. rewrite map_cons, rsum_cons, IH. lra.
    - intros N2 I Hm'. split; [discriminate|].
      assert (forall l, incl l ms -> ~ In m' l -> rsum (map (fun m => if String.eqb (gm_tel m') (gm_tel m) then mean_of m' (time r) else 0) l) = 0) as Z.
      { induction l as [|m l IH]; intros I' N; [reflexivity|]. rewrite map_cons, rsum_cons, IH; [|intros x Hx; apply I'; now right|intro; apply N; now right].
        destruct (String.eqb_spec (gm_tel m') (gm_tel m)) as [Q|_]; [|lra]. exfalso. apply N. left. exact (by_tel ms m' m ND Hm' (I' m (or_introl eq_refl)) (eq_sym Q)). }
      split; [|intros _ N; now apply Z]. intros _. induction ms2 as [|m ms2 IH]; [easy|]. inversion N2 as [|? ? A B]; subst. rewrite map_cons, rsum_cons. intros [->|H].
      + rewrite String.eqb_refl, Z; [lra|intros x Hx; apply I; now right|]. intro Q. apply A. now apply in_map.
      + rewrite IH; auto; [|intros x Hx; apply I; now right]. destruct (String.eqb_spec (gm_tel m') (gm_tel m)) as [Q|_]; [|lra]. exfalso. apply A. rewrite <- Q. now apply in_map.
  Qed.

  Lemma points_drawn d G st V fm rv fm' ss : like_made d G st -> mtelplot (gp_plt st) (each V ms) (gp_err st) (gp_tel st) fm rv = Ok (fm', ss) ->
    drawn (all_tels ms) (map (fun t => t - d) (all_times ms)) (each V ms) (bars ms) ss.
  Proof.
    intros [] H. rewrite lm_plt0, lm_err0, lm_tel0 in H. apply mtel_drawn in H; auto; rewrite ?map_length; apply each_len.
  Qed.

  (** values of a panel with [S] of the means added *)
  Lemma timeseries_inv d G st fm st' fm' gs ss : like_made d G st -> gp_timeseries orbit opt st fm = Ok (st', fm', gs, ss) ->
    let B m r := if o_orbit opt then 0 else G m r in
    let V m r := vel r - gm_off m - f (time r) + B m r - (if o_mean opt then mean_of m (time r) else 0) in
    drawn (all_tels ms) (map (fun t => t - d) (all_times ms)) (each V ms) (bars ms) ss /\
    Forall2 (depicts opt f st) ms gs /\ Forall2 (coloured fm) ms gs /\
    like_made d (fun m r => G m r + (if o_orbit opt then 0 else if o_mean opt then 0 else mean_of m (time r))) st' /\
    mtelplot (gp_plt st) (each V ms) (gp_err st) (gp_tel st) fm [] = Ok (fm', ss).
  Proof.
    intros LM H B V. unfold gp_timeseries in H. pose proof LM as [].
    assert (model4data opt st = each B ms) as MD.
    { unfold model4data, B. rewrite lm_rvmod0. destruct (o_orbit opt); [rewrite each_map|]; reflexivity. }
    rewrite MD in H. destruct (draw_all _ _ _ _ _ _ _ _) as [[[e1 om] gs1]|] eqn:E1; [|discriminate]. cbn [bind] in H.
    apply (draw_inv d G st fm LM ms (gp_likes st) lm_likes0 (incl_refl ms)) in E1 as (-> & -> & D & C).
    assert (forall m r, In m ms -> rsum (map (fun m0 => added m0 m r) ms) = if o_mean opt then 0 else mean_of m (time r)) as AS.
    { intros m r Hm. destruct (added_sum lm_tels0 ms m r lm_tels0 (incl_refl ms) Hm) as (A1 & A2 & _). destruct (o_mean opt); auto. }
    assert (map2 Rplus (gp_raw st) (each (fun m r => B m r + rsum (map (fun m0 => added m0 m r) ms)) ms) = each V ms) as VE.
    { rewrite lm_raw0, each_map2. apply each_ext. intros m r Hm Hr. rewrite AS by exact Hm. unfold V. destruct (o_mean opt); lra. }
    rewrite VE in H. destruct (mtelplot _ _ _ _ _ _) as [[fm1 ss1]|] eqn:EM; [|discriminate]. cbn [bind] in H. injection H as <- <- <- <-.
    split; [eapply points_drawn; eauto|]. split; [exact D|]. split; [exact C|]. split; [|reflexivity].
    destruct (like_after d G st (each (fun m r => B m r + rsum (map (fun m0 => added m0 m r) ms)) ms) _ LM eq_refl).
    constructor; auto. rewrite lm_rvmod1. unfold B. destruct (o_orbit opt); apply each_ext; intros m r Hm Hr; [lra|]. now rewrite AS.
  Qed.

  Lemma separate_inv d fm0 : forall ms2 ls, Forall2 stands_for ms2 ls -> incl ms2 ms -> forall G st fm st' fm' ps, like_made d G st ->
    gp_epoch st = gp_epoch fm0 -> gp_xlim st = gp_xlim fm0 -> gp_mplt st = gp_mplt fm0 ->
    gp_separate orbit opt st fm ls = Ok (st', fm', ps) ->
    Forall2 (fun k p => exists m, nth_error ms2 k = Some m /\ depicts opt f fm0 m (fst p) /\
      drawn (all_tels ms) (map (fun t => t - d) (all_times ms))
        (each (fun m' r => vel r - gm_off m' - f (time r) - mean_of m' (time r) + (if o_orbit opt then added m m' r else G m' r + rsum (map (fun m0 => added m0 m' r) (firstn (S k) ms2)))) ms) (bars ms) (snd p))
      (seq 0 (length ms2)) ps.
  Proof.
    intros ms2 ls F2. induction F2 as [|m l ms2 ls SF F2 IH]; intros I G st fm st' fm' ps LM HE HX HM H; cbn [gp_separate] in H.
    - injection H as <- <- <-. constructor.
    - pose proof LM as []. assert (In m ms) as Hm by (apply I; now left).
      assert (model4data opt st = each (fun m r => if o_orbit opt then 0 else G m r) ms) as MD.
      { unfold model4data. rewrite lm_rvmod0. destruct (o_orbit opt); [rewrite each_map|]; reflexivity. }
      rewrite MD in H. destruct (plot_gp_like _ _ _ _ _ _ _) as [[[[e1 om1] ci1] g]|] eqn:E1; [|discriminate]. cbn [bind] in H.
      apply (like_inv d st lm_tels0 lm_rows0 lm_orbit0 lm_tel0 lm_curve0 lm_epoch0 m l Hm SF) in E1 as (-> & -> & D).
      destruct (mtelplot _ _ _ _ _ _) as [[fm1 ss1]|] eqn:EM; [|discriminate]. cbn [bind] in H.
      rewrite lm_raw0, each_map2 in EM. pose proof (points_drawn _ _ _ _ _ _ _ _ LM EM) as PD.
      pose proof (like_after d G st _ _ LM eq_refl : like_made d _ (after opt st (gp_epoch st) (each (fun m' r => (if o_orbit opt then 0 else G m' r) + added m m' r) ms))) as LA.
      destruct (gp_separate _ _ _ _ _) as [[[st2 fm2] ps2]|] eqn:E2; [|discriminate]. cbn [bind] in H. injection H as <- <- <-.
      eapply IH in E2; [|intros x Hx; apply I; now right|exact LA|exact HE|exact HX|exact HM]. cbn [length seq]. constructor.
      + exists m. split; [reflexivity|]. split; [unfold depicts, band_grid in *; rewrite <- HE, <- HX, <- HM; exact D|].
        cbn [snd]. replace (each _ ms) with (each (fun m' r => vel r - gm_off m' - f (time r) - mean_of m' (time r) + ((if o_orbit opt then 0 else G m' r) + added m m' r)) ms); [exact PD|].
        apply each_ext. intros m' r _ _. cbn [firstn]. rewrite map_cons, rsum_cons. destruct (o_orbit opt); unfold rsum; cbn; lra.
      + rewrite <- seq_shift. revert E2. generalize (seq 0 (length ms2)). intros ks. generalize ps2. clear - d. intros ps2 E2. induction E2 as [|k p ks ps (m2 & N & DD & DR) E2 IH]; [constructor|]. cbn [map]. constructor; [|exact IH].
        exists m2. split; [exact N|]. split; [exact DD|]. match type of DR with drawn _ _ ?a _ _ => match goal with |- drawn _ _ ?b _ _ => replace b with a; [exact DR|] end end.
        apply each_ext. intros m' r _ _. destruct (o_orbit opt); [reflexivity|]. rewrite (firstn_cons (S k)), map_cons, rsum_cons. lra.
  Qed.
End Draw.
