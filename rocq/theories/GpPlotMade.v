(** Statements about the panels of a fit with Gaussian processes (C78) and examples. *)
From Coq Require Import Reals String Arith Bool Lra Lia List.
From Verif Require Import Py PyFacts PyFloat Params Kepler Basis RVModel Likelihood Timebin Stats FastBinSpec TelPlot TelPlotSpec TelPlotProofs TelPlotThms BintelsProofs Panels PanelSpec PanelProofs PanelThms PanelMade GpPlot GpPlotSpec GpPlotThms.
Import ListNotations.
Open Scope R_scope.

Lemma gp_panel ms f orbit d st opt fm st' fm' gs ss : made_of ms f orbit d st -> gp_timeseries orbit opt st fm = Ok (st', fm', gs, ss) ->
  drawn (all_tels ms) (map (fun t => t - d) (all_times ms)) (each (wanted opt f) ms) (bars ms) ss /\ Forall2 (depicts opt f st) ms gs.
Proof.
  intros M H. apply (timeseries_inv ms f orbit opt d _ _ _ _ _ _ _ (made_like _ _ _ _ _ M)) in H as (D & G & _). split; [|exact G].
  replace (each (wanted opt f) ms) with (each (fun m r => vel r - gm_off m - f (time r) + (if o_orbit opt then 0 else f (time r)) - (if o_mean opt then mean_of m (time r) else 0)) ms); [exact D|].
  apply each_ext. intros m r _ _. unfold wanted. destruct (o_orbit opt); lra.
Qed.

Lemma gp_again ms f orbit d st opt fm fm2 st1 fm1 gs1 ss1 st2 fm2' gs2 ss2 : made_of ms f orbit d st -> o_orbit opt = false -> o_mean opt = false ->
  gp_timeseries orbit opt st fm = Ok (st1, fm1, gs1, ss1) -> gp_timeseries orbit opt st1 fm2 = Ok (st2, fm2', gs2, ss2) ->
  drawn (all_tels ms) (map (fun t => t - d) (all_times ms)) (each (fun m r => wanted opt f m r + mean_of m (time r)) ms) (bars ms) ss2.
Proof.
  intros M OO OM H1 H2. apply (timeseries_inv ms f orbit opt d _ _ _ _ _ _ _ (made_like _ _ _ _ _ M)) in H1 as (_ & _ & _ & LM & _).
  apply (timeseries_inv ms f orbit opt d _ _ _ _ _ _ _ LM) in H2 as (D & _). rewrite OO, OM in D.
  match type of D with drawn _ _ ?a _ _ => match goal with |- drawn _ _ ?b _ _ => replace b with a; [exact D|] end end.
  apply each_ext. intros m r _ _. unfold wanted. rewrite OO, OM. lra.
Qed.

Lemma in_first {A} (l : list A) k x y : nth_error l k = Some x -> In y (firstn (S k) l) -> y = x \/ In y (firstn k l).
Proof.
  revert k. induction l as [|a l IH]; intros [|k] H I; try discriminate; cbn in H.
  - injection H as ->. cbn in I. destruct I as [<-|[]]. now left.
  - rewrite firstn_cons in I. destruct I as [<-|I]; [right; now left|]. destruct (IH k H I) as [->|Q]; [now left|]. right. now right.
Qed.
Lemma first_mono {A} (l : list A) k y : In y (firstn k l) -> In y (firstn (S k) l).
Proof. revert k. induction l as [|a l IH]; intros [|k] H; try easy. rewrite firstn_cons in *. destruct H as [<-|H]; [now left|right; auto]. Qed.
Lemma first_own {A} (l : list A) k y : nth_error l k = Some y -> In y (firstn (S k) l).
Proof. revert k. induction l as [|a l IH]; intros [|k] H; try discriminate; cbn in H; [injection H as ->; now left|]. rewrite firstn_cons. right. auto. Qed.

Lemma nodup_first {A} (a b : list A) : NoDup (a ++ b) -> NoDup a.
Proof. induction a as [|x a IH]; intro H; [constructor|]. inversion H as [|? ? N1 N2]; subst. constructor; [|auto]. intro Q. apply N1, in_or_app. now left. Qed.
Lemma nodup_apart {A B} (g : A -> B) (a b : list A) x : NoDup (map g (a ++ b)) -> In x a -> ~ In x b.
Proof.
  induction a as [|y a IH]; intros H I J; [easy|]. cbn in H. inversion H as [|? ? N1 N2]; subst. destruct I as [->|I]; [|exact (IH N2 I J)].
  apply N1, in_map, in_or_app. now right.
Qed.
(** the panel of likelihood [k]: its own points and those of the members before it are right *)
Lemma gp_separately ms f orbit d st opt fm st' fm' ps : made_of ms f orbit d st -> gp_separate orbit opt st fm (gp_likes st) = Ok (st', fm', ps) ->
  length ps = length ms /\ forall k m p, nth_error ms k = Some m -> nth_error ps k = Some p -> depicts opt f st m (fst p) /\
    exists V, drawn (all_tels ms) (map (fun t => t - d) (all_times ms)) (each V ms) (bars ms) (snd p) /\
      (forall m' r, In m' ms -> m' = m \/ gm_gp m' = None \/ o_mean opt = true \/ (o_orbit opt = false /\ In m' (firstn k ms)) -> V m' r = wanted opt f m' r) /\
      (forall m' r, In m' ms -> m' <> m -> o_mean opt = false -> (o_orbit opt = true \/ In m' (skipn (S k) ms)) -> V m' r = wanted opt f m' r - mean_of m' (time r)).
Proof.
  intros M H. pose proof M as []. apply (separate_inv ms f orbit opt d st ms (gp_likes st) mo_likes (incl_refl ms) _ _ _ _ _ _ (made_like _ _ _ _ _ M)) in H; auto.
  assert (length ps = length ms) as L by (apply f2_length in H; rewrite seq_length in H; now symmetry). split; [exact L|].
  intros k m p Hm Hp. assert (k < length ms)%nat as Hk by (apply nth_error_Some; congruence).
  assert (nth_error (seq 0 (length ms)) k = Some k) as Hs. { rewrite (nth_error_nth' _ 0%nat) by now rewrite seq_length. now rewrite seq_nth. }
  destruct (PanelFit.Forall2_nth _ _ _ H k k p Hs Hp) as (m2 & N2 & D & DR). rewrite Hm in N2. injection N2 as <-. split; [exact D|].
  assert (In m ms) as Im by (eapply nth_error_In; eauto).
  assert (NoDup (map gm_tel (firstn (S k) ms))) as NF. { rewrite <- (firstn_skipn (S k) ms), map_app in mo_tels. exact (nodup_first _ _ mo_tels). }
  assert (incl (firstn (S k) ms) ms) as IF. { intros x Hx. rewrite <- (firstn_skipn (S k) ms). apply in_or_app. now left. }
  eexists. split; [exact DR|]. split; intros m' r Hm'.
  - intro C. destruct (added_sum ms opt mo_tels (firstn (S k) ms) m' r NF IF Hm') as (A1 & A2 & A3). unfold wanted, added in *.
    destruct (o_mean opt) eqn:OM; [rewrite A1 by reflexivity; destruct (o_orbit opt); lra|].
    destruct C as [->|[C|[C|[C1 C2]]]].
    + rewrite String.eqb_refl, A2 by (auto using first_own). destruct (o_orbit opt); lra.
    + assert (mean_of m' (time r) = 0) as Z by (unfold mean_of; now rewrite C).
      assert (rsum (map (fun m0 => if String.eqb (gm_tel m') (gm_tel m0) then mean_of m' (time r) else 0) (firstn (S k) ms)) = 0) as ->.
      { clear - Z. induction (firstn (S k) ms) as [|a l IH]; [reflexivity|]. rewrite map_cons, rsum_cons, IH, Z. destruct (String.eqb _ _); lra. }
      rewrite Z. destruct (o_orbit opt); [destruct (String.eqb _ _)|]; lra.
    + discriminate.
    + rewrite C1, A2; [lra|reflexivity|]. now apply first_mono.
  - intros NE OM C. destruct (added_sum ms opt mo_tels (firstn (S k) ms) m' r NF IF Hm') as (A1 & A2 & A3). unfold wanted, added in *. rewrite OM in *.
    destruct (o_orbit opt) eqn:OO.
    + destruct (String.eqb_spec (gm_tel m') (gm_tel m)) as [Q|_]; [|lra]. exfalso. apply NE. exact (by_tel ms m m' mo_tels Im Hm' Q).
    + destruct C as [C|C]; [discriminate C|]. rewrite A3; [lra|reflexivity|]. intro Q. rewrite <- (firstn_skipn (S k) ms) in mo_tels. exact (nodup_apart gm_tel _ _ _ mo_tels Q C).
Qed.

Lemma gp_colours ms f orbit d st opt fm st' fm' gs ss : made_of ms f orbit d st -> gp_timeseries orbit opt st fm = Ok (st', fm', gs, ss) -> formats_wf fm ->
  forall k m g c, nth_error ms k = Some m -> nth_error gs k = Some g -> colour_of g = Some c ->
    (exists v, wrote fm (gm_tel m) "color" v) \/ (no_format fm (gm_tel m) /\ exists n v, known (gm_tel m) n v) ->
    (forall v, wrote fm (gm_tel m) "color" v -> c = v) /\ (forall n v, no_format fm (gm_tel m) -> known (gm_tel m) n v -> c = v) /\
    forall s, In s ss -> s_tel s = gm_tel m -> dget (s_kw s) "color" = Some c.
Proof.
  intros M H W k m g c Hm Hg Hc CH. apply (timeseries_inv ms f orbit opt d _ _ _ _ _ _ _ (made_like _ _ _ _ _ M)) in H as (_ & _ & C & _ & EM).
  destruct (PanelFit.Forall2_nth _ _ _ C k m g Hm Hg c Hc) as [C1 C2]. split; [exact C1|]. split; [exact C2|]. intros s Hs Ts.
  destruct (mtel_colours _ _ _ _ _ _ _ _ _ s W (or_introl eq_refl) EM Hs) as (Q1 & Q2 & _). rewrite Ts in *. destruct CH as [(v & V)|(N & n & v & K)].
  - rewrite (C1 v V). now apply Q1.
  - rewrite (C2 n v N K). now apply (Q2 n).
Qed.

(** a curve of a member without a process *)
Lemma gp_curve ms f orbit d st opt fm st' fm' gs ss : made_of ms f orbit d st -> gp_timeseries orbit opt st fm = Ok (st', fm', gs, ss) ->
  forall k m g, nth_error ms k = Some m -> nth_error gs k = Some g -> gm_gp m = None ->
  exists mt, gp_mplt st = map (fun t => t - d) mt /\ g = Curve (gm_tel m) (map (fun t => (t - d, f t)) mt).
Proof.
  intros M H k m g Hm Hg NG. pose proof M as []. unfold gp_timeseries in H. destruct (draw_all _ _ _ _ _ _ _ _) as [[[e1 om] gs1]|] eqn:E1; [|discriminate]. cbn [bind] in H.
  destruct (mtelplot _ _ _ _ _ _) as [[fm1 ss1]|]; [|discriminate]. cbn [bind] in H. injection H as <- <- <- <-.
  destruct mo_curve as (mt & C1 & C2). exists mt. split; [exact C1|].
  assert (forall ls ms0 ep om0 ci ep' om' gs, Forall2 stands_for ms0 ls -> draw_all orbit opt st fm ls ep om0 ci = Ok (ep', om', gs) ->
    forall k m g, nth_error ms0 k = Some m -> nth_error gs k = Some g -> gm_gp m = None -> g = Curve (gm_tel m) (combine (gp_mplt st) (gp_model st))) as K.
  { clear. induction ls as [|l ls IH]; intros ms0 ep om0 ci ep' om' gs F H k m g Hm Hg NG; inversion F as [|m0 ? ms1 ? SF F1]; subst; cbn [draw_all] in H; [destruct k; discriminate|].
    destruct (plot_gp_like _ _ _ _ _ _ _) as [[[[e1 om1] ci1] g1]|] eqn:E1; [|discriminate]. cbn [bind] in H.
    destruct (draw_all _ _ _ _ _ _ _ _) as [[[e2 om2] gs2]|] eqn:E2; [|discriminate]. cbn [bind] in H. injection H as <- <- <-.
    destruct k as [|k]; cbn in Hm, Hg; [|eapply IH; eauto]. injection Hm as ->. injection Hg as ->. destruct SF as (S1 & _ & S3). rewrite NG in S3. unfold plot_gp_like in E1. rewrite S3 in E1.
    injection E1 as <- <- <- <-. now rewrite S1. }
  rewrite (K _ _ _ _ _ _ _ _ mo_likes E1 k m g Hm Hg NG). rewrite C1, C2. now rewrite combine_maps.
Qed.

(** ** a panel is drawn *)
Lemma draw_ok ms f orbit opt d G0 st fm : like_made ms f orbit d G0 st -> (o_parts opt && o_mean opt = false)%bool -> bands_coloured fm ms ->
  forall ms2 ls, Forall2 stands_for ms2 ls -> incl ms2 ms -> forall G ci, (ci + length (filter (fun m => wants_colour m fm) ms2) <= 9)%nat ->
  exists ep om gs, draw_all orbit opt st fm ls (gp_epoch st) (each G ms) ci = Ok (ep, om, gs).
Proof.
  intros LM PM BC ms2 ls F2. pose proof LM as []. induction F2 as [|m l ms2 ls SF F2 IH]; intros I G ci LT; cbn [draw_all]; [eauto|].
  assert (In m ms) as Hm by (apply I; now left). rewrite kept_epoch. cbn [filter] in LT.
  destruct (like_ok ms f orbit opt st lm_tels lm_rows lm_orbit lm_tel m l Hm SF fm G ci PM (BC m Hm)) as (ep & om & g & E1).
  { intro Q. rewrite Q in LT. cbn [length] in LT. lia. }
  rewrite E1. cbn [bind]. apply (like_inv ms f orbit opt d st lm_tels lm_rows lm_orbit lm_tel lm_curve lm_epoch m l Hm SF) in E1 as (-> & -> & _).
  destruct (IH (fun x Hx => I x (or_intror Hx)) (fun m' r => G m' r + added opt m m' r) (if wants_colour m fm then S ci else ci)) as (e2 & o2 & g2 & ->); [|cbn; eauto].
  destruct (wants_colour m fm); cbn [length] in LT; lia.
Qed.

Lemma gp_drawn ms f orbit d G st opt fm : like_made ms f orbit d G st -> formats_wf fm -> colours_suffice fm (all_tels ms) -> bands_coloured fm ms ->
  o_parts opt = false \/ o_mean opt = false -> exists st' fm' gs ss, gp_timeseries orbit opt st fm = Ok (st', fm', gs, ss).
Proof.
  intros LM W CS BC PM. pose proof LM as []. unfold gp_timeseries.
  assert (model4data opt st = each (fun m r => if o_orbit opt then 0 else G m r) ms) as ->.
  { unfold model4data. rewrite lm_rvmod. destruct (o_orbit opt); [rewrite each_map|]; reflexivity. }
  edestruct (draw_ok ms f orbit opt d _ st fm LM) as (ep & om & gs & E); [now destruct PM as [-> | ->]; rewrite ?andb_false_r|exact BC|exact lm_likes|apply incl_refl| |].
  { instantiate (1 := 0%nat). cbn [plus]. destruct CS as (ts & N & A & L). change 9%nat with (length COLOURS).
    rewrite <- (map_length gm_tel). etransitivity; [|exact L]. apply NoDup_incl_length.
    - clear - lm_tels. induction ms as [|m l IH]; [constructor|]. cbn. inversion lm_tels as [|? ? N1 N2]; subst. destruct (wants_colour m fm); [|auto]. cbn. constructor; [|auto].
      intro Q. apply N1. apply in_map_iff in Q as (x & Q & Hx). apply filter_In in Hx as [Hx _]. rewrite <- Q. now apply in_map.
    - intros t Ht. apply in_map_iff in Ht as (m & <- & Hm). apply filter_In in Hm as [Hm WC]. apply A.
      + assert (gm_rows m <> []) as NR by now apply lm_rows. destruct (gm_rows m) as [|r l] eqn:ER; [easy|]. unfold all_tels, each. apply in_concat. exists (map (fun _ => gm_tel m) (gm_rows m)).
        split; [apply in_map_iff; eauto|]. rewrite ER. now left.
      + apply needs_spec. unfold needs. unfold wants_colour in WC. destruct (gm_gp m); [|discriminate]. destruct (dget fm (gm_tel m)); [discriminate|exact WC]. }
  rewrite E. cbn [bind]. apply (draw_inv ms f orbit opt d _ st fm LM ms (gp_likes st) lm_likes (incl_refl ms)) in E as (-> & -> & _).
  rewrite lm_raw, each_map2, lm_plt, lm_err, lm_tel.
  match goal with |- context [mtelplot ?x ?y ?e ?t ?fm ?rv] => destruct (mtel_main x y e t fm rv) as (fm' & ss & -> & _) end; auto; [rewrite map_length; apply each_len|apply each_len|apply each_len|now left|].
  cbn [bind]. eauto.
Qed.

Lemma gp_made ms f orbit d st opt fm : made_of ms f orbit d st -> formats_wf fm -> colours_suffice fm (all_tels ms) -> bands_coloured fm ms ->
  o_parts opt = false \/ o_mean opt = false -> exists st' fm' gs ss, gp_timeseries orbit opt st fm = Ok (st', fm', gs, ss).
Proof. intro M. exact (gp_drawn _ _ _ _ _ _ _ _ (made_like _ _ _ _ _ M)). Qed.

Lemma gp_not_made ms f orbit d st opt fm m r : made_of ms f orbit d st -> In m ms -> gm_gp m <> None ->
  (o_parts opt = true /\ o_mean opt = true) \/ (~ no_format fm (gm_tel m) /\ wrote_none fm (gm_tel m) "color") -> gp_timeseries orbit opt st fm <> Ok r.
Proof.
  intros M Hm HG C H. destruct r as [[[st' fm'] gs] ss]. unfold gp_timeseries in H. pose proof M as []. destruct (draw_all _ _ _ _ _ _ _ _) as [[[e1 om] gs1]|] eqn:E1; [|discriminate]. clear H.
  assert (forall ls ms0 ep om0 ci ep' om' gs, Forall2 stands_for ms0 ls -> In m ms0 -> draw_all orbit opt st fm ls ep om0 ci = Ok (ep', om', gs) -> False) as K.
  { clear - HG C. induction ls as [|l ls IH]; intros ms0 ep om0 ci ep' om' gs F I H; inversion F as [|m0 ? ms1 ? SF F1]; subst; [easy|]. cbn [draw_all] in H.
    destruct (plot_gp_like _ _ _ _ _ _ _) as [[[[e1 om1] ci1] g1]|] eqn:E1; [|discriminate]. cbn [bind] in H.
    destruct (draw_all _ _ _ _ _ _ _ _) as [[[e2 om2] gs2]|] eqn:E2; [|discriminate]. destruct I as [->|I]; [|eauto]. clear - E1 SF HG C.
    destruct SF as (S1 & _ & S3). destruct (gm_gp m) as [[mu sd]|]; [|easy]. destruct S3 as (p & S3 & _). unfold plot_gp_like in E1. rewrite S3 in E1.
    destruct (band_times _ l) as [ts|]; [|discriminate]. cbn [bind] in E1. destruct (p ts) as [[m1 s1]|]; [|discriminate]. cbn [bind] in E1.
    destruct (if o_orbit opt then _ else _) as [gom|]; [|discriminate]. cbn [bind] in E1. destruct (shown_times _ _ _) as [[e3 xs] ys].
    destruct (if o_mean opt then _ else _) as [[mu1 om2]|]; [|discriminate]. cbn [bind] in E1. rewrite S1 in E1. destruct (band_color _ _ _) as [[c1 ci2]|] eqn:EC; [|discriminate]. cbn [bind] in E1.
    destruct C as [[P1 P2]|[NF WN]]; [rewrite P1, P2 in E1; discriminate|]. unfold band_color in EC. destruct (dget fm (gm_tel m)) as [g|] eqn:EF.
    - unfold dget_res in EC. destruct (dget g "color") as [c|] eqn:Ec; [|discriminate]. apply (WN c). exists g. auto.
    - apply NF. now apply dget_none. }
  eapply K; eauto.
Qed.

(** ** examples *)
Definition like_of (m : member) : plike :=
  mkPL (gm_tel m) (map time (gm_rows m)) (match gm_gp m with None => None | Some (mu, sd) => Some (fun xs => Ok (map mu xs, map sd xs)) end).
Definition plot_of (ms : list member) (f : R -> R) (d epoch : R) (xlim : option (R * R)) (mt : list R) : gpplot :=
  mkGPP (map like_of ms) (all_tels ms) (each (fun m r => vel r - gm_off m - f (time r) - mean_of m (time r)) ms) (each (fun m r => f (time r)) ms) (bars ms)
    (map (fun t => t - d) (all_times ms)) (map (fun t => t - d) mt) (map f mt) epoch xlim.
Lemma plot_of_made ms f d epoch xlim mt : NoDup (map gm_tel ms) -> (forall m, In m ms -> gm_rows m <> []) -> epoch <> 0 ->
  made_of ms f (fun xs => Ok (map f xs)) d (plot_of ms f d epoch xlim mt).
Proof.
  intros ND HR HE. constructor; auto; [|cbn; eauto]. cbn [gp_likes plot_of]. clear. induction ms as [|m ms IH]; [constructor|]. cbn [map]. constructor; [|exact IH].
  split; [reflexivity|]. split; [reflexivity|]. cbn. destruct (gm_gp m) as [[mu sd]|]; [eauto|reflexivity].
Qed.

Definition xm (t : string) (a : R) : member := mkGM t [(a, a + 1, 1); (a + 1, a, 1)] 3 1 (Some (fun s => s + 1, fun _ => 1)).
Definition xms : list member := [xm "y" 10; xm "x" 20; mkGM "z" [(30, 1, 1)] 0 1 None].
Definition xorbit (t : R) : R := 2 * t.
Definition xplot : gpplot := plot_of xms xorbit 5 5 None [10; 20; 30].
Definition xrun : list R -> res (list R) := fun xs => Ok (map xorbit xs).
Lemma xms_made : made_of xms xorbit xrun 5 xplot.
Proof.
  apply plot_of_made; [|intros m H; cbn in H; destruct H as [<-|[<-|[<-|[]]]]; discriminate|lra].
  cbn. repeat constructor; cbn; intuition discriminate.
Qed.
Lemma xms_colours : formats_wf [] /\ colours_suffice [] (all_tels xms) /\ bands_coloured [] xms.
Proof.
  split; [intros t f; discriminate|]. split.
  - exists ["x"; "y"; "z"]%string. split; [repeat constructor; cbn; intuition discriminate|]. split; [|cbn; lia]. intros t Ht _. cbn in Ht. cbn. tauto.
  - intros m _ _. left. intros [].
Qed.
Lemma xms_drawn opt : o_parts opt = false \/ o_mean opt = false -> exists st' fm' gs ss, gp_timeseries xrun opt xplot [] = Ok (st', fm', gs, ss).
Proof. intro PM. destruct xms_colours as (W & C & B). exact (gp_made _ _ _ _ _ _ _ xms_made W C B PM). Qed.

Lemma gp_colour_wrong : exists ms f orbit d st opt fm st' fm' gs ss m g c s,
  made_of ms f orbit d st /\ gp_timeseries orbit opt st fm = Ok (st', fm', gs, ss) /\
  nth_error ms 0 = Some m /\ nth_error gs 0 = Some g /\ colour_of g = Some c /\ In s ss /\ s_tel s = gm_tel m /\ dget (s_kw s) "color" <> Some c.
Proof.
  destruct (xms_drawn (mkOpt false false false) (or_introl eq_refl)) as (st' & fm' & gs & ss & H). pose proof H as H'.
  destruct (gp_panel _ _ _ _ _ _ _ _ _ _ _ xms_made H) as [(_ & DI & _) DP]. inversion DP as [|m0 g ms0 gs0 D0 DP0 Q1 Q2]. subst m0 ms0 gs.
  cbn [depicts gm_gp xm] in D0. destruct D0 as (c & ts & dd & parts & _ & _ & EG & _). cbn [gm_tel] in EG.
  assert (In "y"%string (map s_tel ss)) as Iy by (apply DI; vm_compute; tauto). apply in_map_iff in Iy as (s & Ts & Is).
  exists xms, xorbit, xrun, 5, xplot, (mkOpt false false false), [], st', fm', (g :: gs0), ss, (xm "y" 10), g, c, s.
  split; [exact xms_made|]. split; [exact H'|]. split; [reflexivity|]. split; [reflexivity|]. split; [now subst g|]. split; [exact Is|]. split; [exact Ts|].
  apply (timeseries_inv xms xorbit xrun _ 5 _ _ _ _ _ _ _ (made_like _ _ _ _ _ xms_made)) in H as (_ & _ & _ & _ & EM).
  assert (c = "orange"%string) as ->.
  { unfold gp_timeseries in H'. destruct (draw_all _ _ _ _ _ _ _ _) as [[[e1 om] gs1]|] eqn:E1; [|discriminate]. cbn [bind] in H'.
    destruct (mtelplot _ _ _ _ _ _) as [[fm1 ss1]|]; [|discriminate]. cbn [bind] in H'. injection H' as _ _ -> _.
    cbn [gp_likes xplot plot_of map xms like_of] in E1. cbn [draw_all] in E1.
    destruct (plot_gp_like _ _ _ _ _ _ _) as [[[[e2 om1] ci1] g1]|] eqn:E2; [|discriminate]. cbn [bind] in E1.
    destruct (plot_gp_like _ _ _ _ _ _ ci1) as [[[[e3 om3] ci3] g3]|]; [|discriminate]. cbn [bind] in E1.
    destruct (plot_gp_like _ _ _ _ _ _ ci3) as [[[[e4 om4] ci4] g4]|]; [|discriminate]. cbn [bind] in E1. injection E1 as _ _ <- _. clear - E2 EG.
    unfold plot_gp_like in E2. cbn [pl_predict like_of gm_gp xm] in E2.
    destruct (band_times _ _) as [xp|]; [|discriminate]. cbn [bind] in E2. destruct (if o_orbit _ then _ else _) as [gom|]; [|discriminate]. cbn [bind] in E2.
    destruct (shown_times _ _ _) as [[e3 xs] ys]. destruct (if o_mean _ then _ else _) as [[mu1 om2]|]; [|discriminate]. cbn [bind] in E2.
    cbn [pl_suffix like_of gm_tel xm] in E2. change (band_color [] "y" 0) with (Ok ("orange"%string, 1%nat)) in E2. cbn [bind o_parts o_mean andb] in E2. injection E2 as _ _ _ <-. now injection EG. }
  destruct (series_kw _ _ _ _ _ _ _ _ s (proj1 xms_colours) (or_introl eq_refl) EM Is) as (i & Ei & K & _). rewrite Ts in Ei, K.
  change (gp_tel xplot) with (all_tels xms) in Ei, K. change (np_unique (all_tels xms)) with ["x"; "y"; "z"]%string in Ei, K.
  assert (i = 1%nat) as ->. { destruct i as [|[|[|[|i]]]]; cbn in Ei; try discriminate; reflexivity. }
  destruct (kw_spec "y" (fmt_at [] (count_needs [] (firstn 1 ["x"; "y"; "z"]%string)) "y") (rms_of [] "y") (fmt_at_wf _ _ _ (proj1 xms_colours))) as (kw & EK & O & _).
  rewrite K in EK. injection EK as <-. rewrite O by discriminate. rewrite fmt_needed by reflexivity. vm_compute. discriminate.
Qed.
Lemma xms_separate opt : opt = mkOpt false false false -> exists st' fm' ps, gp_separate xrun opt xplot [] (gp_likes xplot) = Ok (st', fm', ps).
Proof.
  intros ->. pose proof xms_made as M. pose proof xms_colours as (W & CS & BC).
  assert (forall ms2 ls, Forall2 stands_for ms2 ls -> incl ms2 xms -> forall G st fm, like_made xms xorbit xrun 5 G st -> fm = [] ->
    exists st' fm' ps, gp_separate xrun (mkOpt false false false) st fm ls = Ok (st', fm', ps)) as K.
  { intros ms2 ls F2. induction F2 as [|m l ms2 ls SF F2 IH]; intros I G st fm LM ->; cbn [gp_separate]; [eauto|]. pose proof LM as [].
    assert (In m xms) as Hm by (apply I; now left). unfold model4data. cbn [o_orbit]. rewrite lm_rvmod.
    destruct (like_ok xms xorbit xrun (mkOpt false false false) st lm_tels lm_rows lm_orbit lm_tel m l Hm SF [] G 0%nat eq_refl (BC m Hm) (fun _ => ltac:(lia))) as (ep & om & g & E1).
    rewrite E1. cbn [bind]. apply (like_inv xms xorbit xrun _ 5 st lm_tels lm_rows lm_orbit lm_tel lm_curve lm_epoch m l Hm SF) in E1 as (-> & -> & _).
    rewrite lm_raw, each_map2, lm_plt, lm_err, lm_tel.
    match goal with |- context [mtelplot ?x ?y ?e ?t ?fm ?rv] => destruct (mtel_main x y e t fm rv) as (fm' & ss & EM & _) end; [rewrite map_length; apply each_len|apply each_len|apply each_len|exact W|now left|exact CS|].
    rewrite EM. cbn [bind]. assert (fm' = []) as -> by (eapply mtel_settled; [|exact EM]; intros t g0 _; discriminate).
    destruct (IH (fun x Hx => I x (or_intror Hx)) _ _ [] (like_after xms xorbit xrun (mkOpt false false false) 5 G st _ (fun m' r => G m' r + added (mkOpt false false false) m m' r) LM eq_refl) eq_refl) as (s2 & f2 & p2 & E2).
    rewrite E2. cbn [bind]. eauto. }
  pose proof M as []. exact (K _ _ mo_likes (incl_refl _) _ _ _ (made_like _ _ _ _ _ M) eq_refl).
Qed.
Lemma gp_separate_wrong : exists ms f orbit d st opt fm st' fm' ps m m' p V, made_of ms f orbit d st /\ o_orbit opt = false /\ o_mean opt = false /\
  gp_separate orbit opt st fm (gp_likes st) = Ok (st', fm', ps) /\ nth_error ms 0 = Some m /\ nth_error ps 0 = Some p /\ In m' ms /\
  drawn (all_tels ms) (map (fun t => t - d) (all_times ms)) (each V ms) (bars ms) (snd p) /\
  forall r, In r (gm_rows m') -> V m' r <> wanted opt f m' r.
Proof.
  destruct (xms_separate _ eq_refl) as (st' & fm' & ps & E). destruct (gp_separately _ _ _ _ _ _ _ _ _ _ xms_made E) as [L Q].
  destruct ps as [|p ps]; [discriminate|]. destruct (Q 0%nat (xm "y" 10) p eq_refl eq_refl) as (_ & V & D & _ & B).
  exists xms, xorbit, xrun, 5, xplot, (mkOpt false false false), [], st', fm', (p :: ps), (xm "y" 10), (xm "x" 20), p, V.
  split; [exact xms_made|]. split; [reflexivity|]. split; [reflexivity|]. split; [exact E|]. split; [reflexivity|]. split; [reflexivity|]. split; [right; now left|].
  split; [exact D|]. intros r Hr. rewrite B; [|right; now left| |reflexivity|right; now left].
  - cbn in Hr. destruct Hr as [<-|[<-|[]]]; unfold mean_of, time; cbn; lra.
  - intro Z. apply (f_equal gm_tel) in Z. discriminate.
Qed.
Lemma xms_again : exists st1 fm1 gs1 ss1 st2 fm2 gs2 ss2,
  gp_timeseries xrun (mkOpt false false false) xplot [] = Ok (st1, fm1, gs1, ss1) /\ gp_timeseries xrun (mkOpt false false false) st1 [] = Ok (st2, fm2, gs2, ss2).
Proof.
  destruct (xms_drawn (mkOpt false false false) (or_introl eq_refl)) as (st1 & fm1 & gs1 & ss1 & H). exists st1, fm1, gs1, ss1.
  apply (timeseries_inv xms xorbit xrun _ 5 _ _ _ _ _ _ _ (made_like _ _ _ _ _ xms_made)) in H as H'. destruct H' as (_ & _ & _ & LM & _).
  destruct xms_colours as (W & CS & BC). destruct (gp_drawn _ _ _ _ _ _ (mkOpt false false false) [] LM W CS BC (or_introl eq_refl)) as (st2 & fm2 & gs2 & ss2 & H2). eauto 10.
Qed.
