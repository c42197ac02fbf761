(** Proofs about figures (C77). *)
From Coq Require Import Reals String Ascii ZArith Arith Bool List Lra Lia.
From Verif Require Import Py PyFacts PyFloat Params ParamsSpec ParamsProofs Kepler Basis RVModel Likelihood LikeBuild Stats FastBin TelPlot TelPlotSpec TelPlotProofs TelPlotThms BintelsProofs Panels PanelSpec PanelProofs PanelFit PanelThms PanelMade Figure FigureSpec ExLike.
Import ListNotations.
Open Scope nat_scope.

Lemma rows_least num cols nrows rows : phase_rows num cols nrows = Ok rows -> rows_of num cols nrows rows /\ (nrows = None -> cols <> 0).
Proof.
  unfold phase_rows, rows_of, enough. destruct nrows as [r|]; [intro H; injection H as <-; split; [reflexivity|discriminate]|].
  destruct (Nat.eqb_spec cols 0) as [->|N]; [discriminate|]. intro H; injection H as <-. split; [|auto]. split.
  - pose proof (Nat.div_mod (num + (cols - 1)) cols N). pose proof (Nat.mod_upper_bound (num + (cols - 1)) cols N). rewrite Nat.mul_comm in H. nia.
  - intros r Hr. apply Nat.lt_succ_r. apply Nat.div_lt_upper_bound; [exact N|]. nia.
Qed.

Lemma letters_26 i : i < 26 -> is_letter i (97 + i).
Proof.
  intro H. unfold is_letter. assert (forall k, k < 26 -> match nth_error ALPHABET k with Some a => Nat.eqb (97 + k) (nat_of_ascii a) | None => false end = true) as Q.
  { intros k Hk. do 26 (destruct k as [|k]; [reflexivity|]). lia. }
  specialize (Q i H). destruct (nth_error ALPHABET i) as [a|]; [|discriminate]. exists a. split; [reflexivity|]. now apply Nat.eqb_eq.
Qed.

(** what a panel is drawn with *)
Definition drawn_by (tel : list string) (fm : dict fmt) (c : content) (fm' : dict fmt) : Prop :=
  match c with
  | OfTimes p => exists x y e rv, rms_given rv tel /\ mtelplot x y e tel fm rv = Ok (fm', g_series p)
  | OfPhase _ p _ => exists x y e, mtelplot x y e (tel ++ tel) fm [] = Ok (fm', g_series p)
  end.
Lemma in_twice {A} (l : list A) t : In t l <-> In t (l ++ l).
Proof. rewrite in_app_iff. tauto. Qed.
Lemma settled_twice fm tel : settled fm tel -> settled fm (tel ++ tel).
Proof. intros S t g H. apply S. now apply (in_twice tel). Qed.
Lemma drawn_settled tel fm c fm' : settled fm tel -> drawn_by tel fm c fm' -> fm' = fm.
Proof.
  intros S D. destruct c; cbn in D.
  - destruct D as (x & y & e & rv & _ & D). eapply mtel_settled; eauto.
  - destruct D as (x & y & e & D). eapply mtel_settled; [|exact D]. now apply settled_twice.
Qed.
Lemma drawn_alike tel fm a b : formats_wf fm -> settled fm tel -> drawn_by tel fm (a_shows a) fm -> drawn_by tel fm (a_shows b) fm -> alike a b.
Proof.
  intros W S A B t ka kb o IA IB No. pose proof (settled_twice fm tel S) as S2.
  assert (rms_given [] tel /\ rms_given [] (tel ++ tel)) as [G1 G2] by (split; now left).
  destruct (a_shows a) as [pa|na pa ba], (a_shows b) as [pb|nb pb bb]; cbn in A, B, IA, IB;
    apply in_map_iff in IA as (sa & QA & IA); apply in_map_iff in IB as (sb & QB & IB); injection QA as TA <-; injection QB as TB <-.
  - destruct A as (x & y & e & rv & R1 & A), B as (x2 & y2 & e2 & rv2 & R2 & B).
    destruct (mtel_same_formats _ _ _ _ _ _ _ _ _ tel _ _ _ _ _ _ _ W S R1 R2 (fun t => iff_refl _) A B) as (_ & _ & Q). apply Q; auto. congruence.
  - destruct A as (x & y & e & rv & R1 & A), B as (x2 & y2 & e2 & B).
    destruct (mtel_same_formats _ _ _ _ _ _ _ _ _ (tel ++ tel) _ _ _ _ _ _ _ W S R1 G2 (in_twice tel) A B) as (_ & _ & Q). apply Q; auto. congruence.
  - destruct A as (x & y & e & A), B as (x2 & y2 & e2 & rv2 & R2 & B).
    destruct (mtel_same_formats _ _ _ _ _ _ _ _ _ tel _ _ _ _ _ _ _ W S2 G2 R2 (fun t => iff_sym (in_twice tel t)) A B) as (_ & _ & Q). apply Q; auto. congruence.
  - destruct A as (x & y & e & A), B as (x2 & y2 & e2 & B).
    destruct (mtel_same_formats _ _ _ _ _ _ _ _ _ (tel ++ tel) _ _ _ _ _ _ _ W S2 G2 G2 (fun t => iff_refl _) A B) as (_ & _ & Q). apply Q; auto. congruence.
Qed.

Section Fig.
  Variables (use_c : bool) (fuel : nat) (argsort : list ext -> list nat).
  Variables (q : fitted) (ds : list dataset) (b : string) (names : list string) (E : nat -> elements).
  Hypothesis FO : fit_of q ds b names E.
  Let num := ps_num (q_params q).
  Variables (epoch : R) (xlim : option (R * R)) (save : bool) (f : plotted).
  Hypothesis PI : plot_init use_c fuel q epoch xlim save = Ok f.
  Variables (nobin hl : bool).

  Notation axs_loop := (phase_axes use_c fuel argsort q f nobin hl).

  Lemma timeseries_by fm rms fm' p : plot_timeseries use_c fuel q f fm rms hl = Ok (fm', p) -> drawn_by (tels ds) fm (OfTimes p) fm'.
  Proof.
    intro H. destruct (init_ready use_c fuel q ds b names E FO epoch xlim save f PI) as (S & d & RD).
    unfold plot_timeseries in H. destruct (data_same use_c fuel q ds b names E FO) as [_ DT]. rewrite DT in H.
    assert (exists D, snd (rms_loop use_c fuel q (q_likes q) (f_rows f) []) = Ok D /\ (forall t, In t (tels ds) -> In t (dkeys D))) as (D & D1 & D2)
      by (edestruct rms_result as (D & D1 & D2 & _); [exact FO|exact RD|eauto]).
    assert (exists rv, (if rms then snd (rms_loop use_c fuel q (q_likes q) (f_rows f) []) else Ok []) = Ok rv /\ rms_given rv (tels ds)) as (rv & R0 & R1).
    { destruct rms; [exists D|exists []]; (split; [auto|]); [right; exact D2|left; reflexivity]. }
    rewrite R0 in H. cbn [bind] in H. cbv zeta in H.
    destruct (mtelplot _ _ _ _ _ _) as [[fm1 ss]|] eqn:EM; [|discriminate]. cbn [bind] in H.
    destruct (if hl then _ else _) as [last|]; [|discriminate]. cbn [bind] in H. injection H as <- <-. cbn. eauto 8.
  Qed.
  Lemma residuals_by fm fm' p : plot_residuals q f fm hl = Ok (fm', p) -> drawn_by (tels ds) fm (OfTimes p) fm'.
  Proof.
    intro H. unfold plot_residuals in H. destruct (data_same use_c fuel q ds b names E FO) as [_ DT]. rewrite DT in H.
    destruct (mtelplot _ _ _ _ _ _) as [[fm1 ss]|] eqn:EM; [|discriminate]. cbn [bind] in H.
    destruct (if hl then _ else _) as [last|]; [|discriminate]. cbn [bind] in H. injection H as <- <-. cbn. do 4 eexists. split; [now left|exact EM].
  Qed.
  Lemma phasefold_by fm n fm' p bins : plot_phasefold use_c fuel argsort q f fm nobin hl n = Ok (fm', p, bins) -> drawn_by (tels ds) fm (OfPhase n p bins) fm'.
  Proof.
    intro H. unfold plot_phasefold in H. destruct (data_same use_c fuel q ds b names E FO) as [_ DT]. rewrite DT in H. cbv zeta in H.
    destruct (q_model _ _ _ _ _ _) as [m2|]; [|discriminate]. cbn [bind] in H.
    destruct (Phase.t_to_phase _ _ _ _ _) as [mph|]; [|discriminate]. cbn [bind] in H.
    destruct (q_model _ _ _ _ _ _) as [m1|]; [|discriminate]. cbn [bind] in H.
    destruct (Phase.t_to_phase _ _ _ _ _) as [ph|]; [|discriminate]. cbn [bind] in H.
    destruct (map_res _ _) as [xs|]; [|discriminate]. cbn [bind] in H.
    destruct (fastbin _ _ _) as [bb|]; [|discriminate]. cbn [bind] in H.
    destruct (map_res _ (argsort _)) as [cv|]; [|discriminate]. cbn [bind] in H.
    destruct (if hl then _ else _) as [last|]; [|discriminate]. cbn [bind] in H.
    destruct (mtelplot _ _ _ _ _ _) as [[fm1 ss]|] eqn:EM; [|discriminate]. cbn [bind] in H. injection H as <- <- <-. cbn. eauto.
  Qed.

  Lemma uncoloured_back tel fm c fm' : length (times ds) <> 0 -> tel = tels ds -> formats_wf fm -> drawn_by tel fm c fm' ->
    settled fm' tel /\ formats_wf fm' /\ forall t, uncoloured fm' t -> uncoloured fm t.
  Proof.
    intros NZ -> W D.
    assert (forall X (x : list X) y e tel rv ss, tel <> [] -> rms_given rv tel -> mtelplot x y e tel fm rv = Ok (fm', ss) ->
      settled fm' tel /\ formats_wf fm' /\ forall t, uncoloured fm' t -> uncoloured fm t) as K.
    { intros X x y e tel rv ss NT RG H. destruct (mtel_settles x y e tel fm rv fm' ss W RG H) as [S1 W1]. split; [exact S1|]. split; [exact W1|].
      destruct (mtel_inv x y e tel fm rv fm' ss W RG H NT) as (Lx & Ly & Le & C).
      destruct (mtel_main x y e tel fm rv Lx Ly Le W RG C) as (fm2 & ss2 & E2 & _ & _ & B & Dn). rewrite H in E2. injection E2 as <- <-.
      intros t [U1 U2]. destruct (in_dec string_dec t tel) as [It|It].
      - pose proof It as Iu. apply np_unique_in in Iu. apply In_nth_error in Iu as (i & Ei). specialize (Dn i t Ei).
        unfold uncoloured, wrote_none, wrote, no_format in *. rewrite <- !dget_none in *. destruct (dget fm t) as [g|] eqn:Eg.
        + exfalso. destruct (S1 t _ It Dn) as (c0 & Ec). apply (U1 c0). eauto.
        + split; [intros v (f0 & Q & _); discriminate|]. intro N. apply U2. rewrite Dn. reflexivity.
      - unfold uncoloured, wrote_none, wrote, no_format in *. rewrite <- !dget_none in *. rewrite B in * by exact It. auto. }
    assert (tels ds <> []) as NT by (intro Z; apply NZ; rewrite <- tels_len, Z; reflexivity).
    destruct c; cbn in D.
    - destruct D as (x & y & e & rv & RG & D). eapply K; eauto.
    - destruct D as (x & y & e & D). destruct (K _ x y e (tels ds ++ tels ds)%list [] _ ltac:(intro Z; apply app_eq_nil in Z as [Z _]; auto) (or_introl eq_refl) D) as (A & B & C).
      split; [|split; auto]. intros t g Ht. apply A, (proj1 (in_twice _ _) Ht).
  Qed.

  (** the loop over planets *)
  Lemma axes_inv cols rows : forall is fm letter fm' rest, axs_loop cols rows is fm letter = Ok (fm', rest) ->
    (is = [] /\ rest = [] /\ fm' = fm \/ exists c, letter = Some c) /\ (is <> [] -> cols <> 0) /\ length rest = length is /\
    forall k i a, nth_error is k = Some i -> nth_error rest k = Some a ->
      exists row col p bins fm1 fm2, a_place a = Cell row col /\ cell_number cols row col i /\ row < Nat.max 1 rows /\
        (forall c, letter = Some c -> a_letter a = Some (c + k)) /\ a_shows a = OfPhase (S i) p bins /\
        plot_phasefold use_c fuel argsort q f fm1 nobin hl (S i) = Ok (fm2, p, bins).
  Proof.
    induction is as [|i is IH]; intros fm letter fm' rest H; cbn [phase_axes] in H.
    - injection H as <- <-. split; [left; auto|]. split; [congruence|]. split; [reflexivity|]. intros [|k] ? ?; discriminate.
    - destruct (Nat.eqb_spec cols 0) as [|NC]; [discriminate|]. destruct (negb _) eqn:EB; [discriminate|]. apply negb_false_iff, andb_true_iff in EB as [B1 B2].
      apply Nat.ltb_lt in B1, B2. destruct letter as [c|]; [|discriminate].
      destruct (plot_phasefold _ _ _ _ _ _ _ _ _) as [[[fm1 p] bins]|] eqn:EP; [|discriminate]. cbn [bind] in H.
      destruct (phase_axes _ _ _ _ _ _ _ _ _ is _ _) as [[fm2 r]|] eqn:EA; [|discriminate]. cbn [bind] in H. injection H as <- <-.
      apply IH in EA as (_ & _ & L & Q). split; [right; eauto|]. split; [auto|]. split; [cbn; congruence|].
      intros [|k] j a Hi Ha; cbn in Hi, Ha.
      + injection Hi as <-. injection Ha as <-. cbn [a_place a_letter a_shows]. rewrite Nat.add_1_r in *. do 6 eexists. split; [reflexivity|]. split; [|split; [exact B1|]].
        * split; [lia|]. pose proof (Nat.div_mod i cols NC). pose proof (Nat.mod_upper_bound i cols NC). rewrite Nat.mul_comm in H. lia.
        * split; [|split; [reflexivity|exact EP]]. intros c0 Q0. injection Q0 as <-. f_equal. lia.
      + destruct (Q k j a Hi Ha) as (row & col & p0 & b0 & f1 & f2 & Q1 & Q2 & Q3 & Q4 & Q5 & Q6). do 6 eexists. split; [exact Q1|]. split; [exact Q2|]. split; [exact Q3|].
        split; [|split; [exact Q5|exact Q6]]. intros c0 Q0. injection Q0 as <-. rewrite (Q4 _ eq_refl). f_equal. lia.
  Qed.

  Lemma axes_by cols rows : forall is fm letter fm' rest, settled fm (tels ds) -> axs_loop cols rows is fm letter = Ok (fm', rest) ->
    fm' = fm /\ forall a, In a rest -> drawn_by (tels ds) fm (a_shows a) fm.
  Proof.
    induction is as [|i is IH]; intros fm letter fm' rest S H; cbn [phase_axes] in H.
    - injection H as <- <-. split; [reflexivity|]. intros a [].
    - destruct (Nat.eqb _ _); [discriminate|]. destruct (negb _); [discriminate|]. destruct letter as [c|]; [|discriminate].
      destruct (plot_phasefold _ _ _ _ _ _ _ _ _) as [[[fm1 p] bins]|] eqn:EP; [|discriminate]. cbn [bind] in H.
      destruct (phase_axes _ _ _ _ _ _ _ _ _ is _ _) as [[fm2 r]|] eqn:EA; [|discriminate]. cbn [bind] in H. injection H as <- <-.
      apply phasefold_by in EP. pose proof (drawn_settled _ _ _ _ S EP) as ->. apply IH in EA as [-> Q]; [|exact S]. split; [reflexivity|].
      intros a [<-|Ha]; [exact EP|auto].
  Qed.

  Lemma axes_ok cols rows fm : cols <> 0 -> (forall l i, In i (argsort l) -> i < length l) -> settled fm (tels ds) -> formats_wf fm -> colours_suffice fm (tels ds) ->
    forall is c, (forall i, In i is -> i < num /\ i < rows * cols) -> exists fm' rest, axs_loop cols rows is fm (Some c) = Ok (fm', rest).
  Proof.
    intros NC AS S W CS. destruct (init_ready use_c fuel q ds b names E FO epoch xlim save f PI) as (Sol & d & RD).
    induction is as [|i is IH]; intros c H; cbn [phase_axes]; [eauto|]. destruct (Nat.eqb_spec cols 0) as [|_]; [contradiction|].
    destruct (H i (or_introl eq_refl)) as [Hn Hr]. pose proof (Nat.div_mod i cols NC). pose proof (Nat.mod_upper_bound i cols NC). rewrite Nat.mul_comm in H0.
    assert (Nat.ltb (i / cols) (Nat.max 1 rows) = true) as ->. { apply Nat.ltb_lt. assert (i / cols < rows) by (apply Nat.div_lt_upper_bound; [exact NC|lia]). lia. }
    assert (Nat.ltb (i - i / cols * cols) (Nat.max 1 cols) = true) as -> by (apply Nat.ltb_lt; lia). cbn [andb negb].
    edestruct (phasefold_ok use_c fuel argsort q ds b names E) with (n := i + 1) as (fm1 & p & bins & EP); [exact FO|exact RD| |exact W|exact CS|exact AS|].
    { unfold num in Hn. lia. }
    rewrite EP. cbn [bind]. apply phasefold_by in EP. pose proof (drawn_settled _ _ _ _ S EP) as ->.
    destruct (IH (c + 1)) as (fm2 & r & ->); [intros j Hj; apply H; now right|]. cbn [bind]. eauto.
  Qed.

  Section Made.
    Variables (fm : dict fmt) (rms : bool) (ncols nrows : option nat) (nophase letters : bool).
    Notation figure := (plot_multipanel use_c fuel argsort q f nobin hl fm rms ncols nrows nophase letters).

    Lemma figure_inv fm' axs : figure = Ok (fm', axs) -> exists rows fm1 fm2 p1 p2 rest,
      phase_rows num (phase_cols ncols) nrows = Ok rows /\ plot_timeseries use_c fuel q f fm rms hl = Ok (fm1, p1) /\ plot_residuals q f fm1 hl = Ok (fm2, p2) /\
      (if nophase then Ok (fm2, []) else axs_loop (phase_cols ncols) rows (seq 0 num) fm2 (if letters then Some 99 else None)) = Ok (fm', rest) /\
      axs = mkAxes (Upper 0) (if letters then Some 97 else None) (OfTimes p1) :: mkAxes (Upper 1) (if letters then Some 98 else None) (OfTimes p2) :: rest.
    Proof.
      unfold plot_multipanel. fold num. intro H. destruct (phase_rows _ _ _) as [rows|]; [|discriminate]. cbn [bind] in H.
      destruct (plot_timeseries _ _ _ _ _ _ _) as [[fm1 p1]|] eqn:E1; [|discriminate]. cbn [bind] in H.
      destruct (plot_residuals _ _ _ _) as [[fm2 p2]|] eqn:E2; [|discriminate]. cbn [bind] in H.
      destruct (if nophase then _ else _) as [[fm3 rest]|] eqn:E3; [|discriminate]. cbn [bind] in H. injection H as <- <-. exists rows, fm1, fm2, p1, p2, rest. auto.
    Qed.

    Lemma figure_main fm' axs : figure = Ok (fm', axs) -> exists S rows a1 a2 rest,
      solution_of use_c fuel q ds names E (f_rows f) (times ds ++ f_mt f) S /\ rows_of num (phase_cols ncols) nrows rows /\ axs = a1 :: a2 :: rest /\
      (exists p, a_place a1 = Upper 0 /\ a_shows a1 = OfTimes p /\
         shows ds (f_mt f) S epoch hl (velocity S) (fun t => planets S (all_planets num) t + trend S t)%R p) /\
      (exists p, a_place a2 = Upper 1 /\ a_shows a2 = OfTimes p /\ shows ds (f_mt f) S epoch hl (residual S num) (fun _ => 0%R) p) /\
      length rest = (if nophase then 0 else num) /\
      (forall i a, nth_error rest i = Some a -> exists row col p bins, a_place a = Cell row col /\ cell_number (phase_cols ncols) row col i /\ row < Nat.max 1 rows /\
         a_shows a = OfPhase (i + 1) p bins /\ shows_phase argsort ds (f_mt f) S num (i + 1) names (E (i + 1)) nobin hl p bins).
    Proof.
      intro H. apply figure_inv in H as (rows & fm1 & fm2 & p1 & p2 & rest & ER & E1 & E2 & E3 & ->).
      destruct (init_ready use_c fuel q ds b names E FO epoch xlim save f PI) as (S & d & RD). apply rows_least in ER as [RO NC0].
      exists S, rows. do 2 eexists. exists rest. split; [apply RD|]. split; [exact RO|]. split; [reflexivity|].
      split; [exists p1; split; [reflexivity|]; split; [reflexivity|]; eapply timeseries_shows; eauto|].
      split; [exists p2; split; [reflexivity|]; split; [reflexivity|]; eapply residuals_shows; eauto|].
      destruct nophase; [injection E3 as <- <-; split; [reflexivity|]; intros [|i] ? ?; discriminate|].
      apply axes_inv in E3 as (LT & NC & L & Q). rewrite seq_length in L. split; [exact L|]. intros i a Ha.
      assert (i < num) as Hi by (rewrite <- L; apply nth_error_Some; congruence).
      assert (nth_error (seq 0 num) i = Some i) as Hs. { rewrite (nth_error_nth' _ 0) by now rewrite seq_length. now rewrite seq_nth. }
      destruct (Q i i a Hs Ha) as (row & col & p & bins & f1 & f2 & Q1 & Q2 & Q3 & Q4 & Q5 & Q6). rewrite <- Nat.add_1_r in *. exists row, col, p, bins.
      split; [exact Q1|]. split; [exact Q2|]. split; [exact Q3|]. split; [exact Q5|].
      eapply phasefold_shows; eauto. unfold num in Hi. lia.
    Qed.

    Lemma figure_letters fm' axs : figure = Ok (fm', axs) -> letters = true -> forall i a, nth_error axs i = Some a ->
      exists c, a_letter a = Some c /\ (i < 26 -> is_letter i c) /\ c = 97 + i.
    Proof.
      intros H LT i a Ha. exists (97 + i). split; [|split; [apply letters_26|reflexivity]].
      apply figure_inv in H as (rows & fm1 & fm2 & p1 & p2 & rest & ER & E1 & E2 & E3 & ->). rewrite LT in *.
      destruct i as [|[|i]]; cbn [nth_error] in Ha; [injection Ha as <-; reflexivity|injection Ha as <-; reflexivity|].
      destruct nophase; [injection E3 as <- <-; destruct i; discriminate|]. apply axes_inv in E3 as (_ & _ & L & Q). rewrite seq_length in L.
      assert (i < num) as Hi by (rewrite <- L; apply nth_error_Some; congruence).
      assert (nth_error (seq 0 num) i = Some i) as Hs. { rewrite (nth_error_nth' _ 0) by now rewrite seq_length. now rewrite seq_nth. }
      destruct (Q i i a Hs Ha) as (row & col & p & bins & f1 & f2 & _ & _ & _ & Q4 & _). rewrite (Q4 _ eq_refl). f_equal.
    Qed.
    Lemma figure_unlettered fm' axs : figure = Ok (fm', axs) -> letters = false -> forall a, In a axs -> a_letter a = None.
    Proof.
      intros H LT a Ha. apply figure_inv in H as (rows & fm1 & fm2 & p1 & p2 & rest & ER & E1 & E2 & E3 & ->). rewrite LT in *.
      destruct Ha as [<-|[<-|Ha]]; try reflexivity. destruct nophase; [injection E3 as <- <-; easy|]. apply axes_inv in E3 as ([(_ & -> & _)|(c & Q)] & _); [easy|discriminate].
    Qed.

    Lemma times_some : length (times ds) <> 0.
    Proof.
      destruct (init_ready use_c fuel q ds b names E FO epoch xlim save f PI) as (S & d & RD). destruct RD as (_ & _ & NT & _). now rewrite length_zero_iff_nil.
    Qed.

    Lemma figure_alike fm' axs : formats_wf fm -> figure = Ok (fm', axs) -> forall i j a b', nth_error axs i = Some a -> nth_error axs j = Some b' ->
      (1 <= i /\ 1 <= j) \/ settled fm (tels ds) -> alike a b'.
    Proof.
      intros W H i j a b' Ha Hb HS. apply figure_inv in H as (rows & fm1 & fm2 & p1 & p2 & rest & ER & E1 & E2 & E3 & ->).
      apply timeseries_by in E1. apply residuals_by in E2. destruct (uncoloured_back _ _ _ _ times_some eq_refl W E1) as (S1 & W1 & _).
      pose proof (drawn_settled _ _ _ _ S1 E2) as ->.
      assert (forall a, In a rest -> drawn_by (tels ds) fm1 (a_shows a) fm1) as RB.
      { destruct nophase; [injection E3 as <- <-; intros x []|]. now apply (axes_by _ _ _ _ _ _ _ S1) in E3. }
      assert (forall k x, 1 <= k \/ settled fm (tels ds) -> nth_error (mkAxes (Upper 0) (if letters then Some 97 else None) (OfTimes p1) :: mkAxes (Upper 1) (if letters then Some 98 else None) (OfTimes p2) :: rest) k = Some x ->
        drawn_by (tels ds) fm1 (a_shows x) fm1) as K.
      { intros [|[|k]] x Hk Hx; cbn [nth_error] in Hx.
        - injection Hx as <-. destruct Hk as [Hk|Hk]; [lia|]. pose proof (drawn_settled _ _ _ _ Hk E1) as ->. exact E1.
        - injection Hx as <-. exact E2.
        - apply RB. eapply nth_error_In; eauto. }
      apply (drawn_alike (tels ds) fm1); auto; [apply (K i)|apply (K j)]; tauto.
    Qed.

    Lemma figure_ok : (forall l i, In i (argsort l) -> i < length l) -> formats_wf fm -> colours_suffice fm (tels ds) ->
      phase_cols ncols <> 0 -> (forall r, nrows = Some r -> enough num r (phase_cols ncols)) -> letters = true ->
      exists fm' axs, figure = Ok (fm', axs).
    Proof.
      intros AS W CS NC NR LT. destruct (init_ready use_c fuel q ds b names E FO epoch xlim save f PI) as (S & d & RD). unfold plot_multipanel. fold num. cbv zeta.
      assert (exists rows, phase_rows num (phase_cols ncols) nrows = Ok rows) as (rows & ER).
      { unfold phase_rows. destruct nrows; [eauto|]. destruct (Nat.eqb_spec (phase_cols ncols) 0); [contradiction|eauto]. }
      rewrite ER. cbn [bind]. apply rows_least in ER as [RO _].
      assert (enough num rows (phase_cols ncols)) as EN by (destruct nrows as [r|]; cbn in RO; [subst r; auto|apply RO]).
      edestruct (timeseries_ok use_c fuel q ds b names E) as (fm1 & p1 & E1); [exact FO|exact RD|exact W|exact CS|]. rewrite E1. cbn [bind].
      apply timeseries_by in E1. destruct (uncoloured_back _ _ _ _ times_some eq_refl W E1) as (S1 & W1 & UB).
      assert (colours_suffice fm1 (tels ds)) as CS1. { destruct CS as (ts & A & B & C). exists ts. split; [exact A|]. split; [|exact C]. intros t Ht U. apply B; auto. }
      edestruct (residuals_ok use_c fuel q ds b names E) as (fm2 & p2 & E2); [exact FO|exact RD|exact W1|exact CS1|]. rewrite E2. cbn [bind].
      apply residuals_by in E2. pose proof (drawn_settled _ _ _ _ S1 E2) as ->.
      destruct nophase; [cbn [bind]; eauto|]. rewrite LT.
      destruct (axes_ok (phase_cols ncols) rows fm1 NC AS S1 W1 CS1 (seq 0 num) (97 + 1 + 1)) as (fm3 & rest & ->).
      { intros i Hi. apply in_seq in Hi. unfold enough in EN. lia. }
      cbn [bind]. eauto.
    Qed.
    (** without phases no letter is needed *)
    Lemma figure_ok_plain : formats_wf fm -> colours_suffice fm (tels ds) -> phase_cols ncols <> 0 -> nophase = true \/ num = 0 -> exists fm' axs, figure = Ok (fm', axs).
    Proof.
      intros W CS NC NP. destruct (init_ready use_c fuel q ds b names E FO epoch xlim save f PI) as (S & d & RD). unfold plot_multipanel. fold num. cbv zeta.
      assert (exists rows, phase_rows num (phase_cols ncols) nrows = Ok rows) as (rows & ER).
      { unfold phase_rows. destruct nrows; [eauto|]. destruct (Nat.eqb_spec (phase_cols ncols) 0); [contradiction|eauto]. }
      rewrite ER. cbn [bind].
      edestruct (timeseries_ok use_c fuel q ds b names E) as (fm1 & p1 & E1); [exact FO|exact RD|exact W|exact CS|]. rewrite E1. cbn [bind].
      apply timeseries_by in E1. destruct (uncoloured_back _ _ _ _ times_some eq_refl W E1) as (S1 & W1 & UB).
      assert (colours_suffice fm1 (tels ds)) as CS1. { destruct CS as (ts & A & B & C). exists ts. split; [exact A|]. split; [|exact C]. intros t Ht U. apply B; auto. }
      edestruct (residuals_ok use_c fuel q ds b names E) as (fm2 & p2 & E2); [exact FO|exact RD|exact W1|exact CS1|]. rewrite E2. cbn [bind].
      destruct NP as [->| ->]; [|destruct nophase]; cbn [seq phase_axes bind]; eauto.
    Qed.

    Lemma figure_refuted fm' axs : nophase = false ->
      (letters = false /\ 1 <= num) \/ (phase_cols ncols = 0 /\ 1 <= num) \/ (exists r, nrows = Some r /\ Nat.max 1 r * phase_cols ncols < num) -> figure <> Ok (fm', axs).
    Proof.
      intros NP C H. apply figure_inv in H as (rows & fm1 & fm2 & p1 & p2 & rest & ER & E1 & E2 & E3 & ->). rewrite NP in E3.
      apply axes_inv in E3 as (LT & NC & L & Q). rewrite seq_length in L. destruct C as [[-> N]|[[Z N]|(r & -> & N)]].
      - destruct LT as [(Z & _)|(c & Z)]; [|discriminate]. destruct num; [lia|discriminate].
      - apply NC; [|exact Z]. destruct num; [lia|discriminate].
      - cbn in ER. injection ER as <-.
        assert (num - 1 < length rest) as Hi by lia. apply nth_error_Some in Hi. destruct (nth_error rest (num - 1)) as [a|] eqn:Ea; [|easy].
        assert (nth_error (seq 0 num) (num - 1) = Some (num - 1)) as Hs. { rewrite (nth_error_nth' _ 0) by (rewrite seq_length; lia). rewrite seq_nth by lia. reflexivity. }
        destruct (Q _ _ _ Hs Ea) as (row & col & p & bins & f1 & f2 & _ & [Q1 Q2] & Q3 & _). nia.
    Qed.
  End Made.
End Fig.

(** ** The statements of PropertiesFigure.v *)
Lemma fig_main use_c fuel argsort q ds b names E epoch xlim save f nobin hl fm rms ncols nrows nophase letters fm' axs :
  fit_of q ds b names E -> plot_init use_c fuel q epoch xlim save = Ok f ->
  plot_multipanel use_c fuel argsort q f nobin hl fm rms ncols nrows nophase letters = Ok (fm', axs) ->
  let num := ps_num (q_params q) in let cols := columns ncols in exists S rows a1 a2 rest,
    solution_of use_c fuel q ds names E (f_rows f) (times ds ++ f_mt f) S /\ rows_of num cols nrows rows /\ axs = a1 :: a2 :: rest /\
    (exists p, a_place a1 = Upper 0 /\ a_shows a1 = OfTimes p /\
       shows ds (f_mt f) S epoch hl (velocity S) (fun t => planets S (all_planets num) t + trend S t)%R p) /\
    (exists p, a_place a2 = Upper 1 /\ a_shows a2 = OfTimes p /\ shows ds (f_mt f) S epoch hl (residual S num) (fun _ => 0%R) p) /\
    length rest = (if nophase then 0 else num) /\
    (forall i a, nth_error rest i = Some a -> exists row col p bins, a_place a = Cell row col /\ cell_number cols row col i /\ row < Nat.max 1 rows /\
       a_shows a = OfPhase (i + 1) p bins /\ shows_phase argsort ds (f_mt f) S num (i + 1) names (E (i + 1)) nobin hl p bins).
Proof. intros FO PI H. eapply figure_main; eauto. Qed.
Lemma fig_letters use_c fuel argsort q ds b names E epoch xlim save f nobin hl fm rms ncols nrows nophase letters fm' axs :
  fit_of q ds b names E -> plot_init use_c fuel q epoch xlim save = Ok f ->
  plot_multipanel use_c fuel argsort q f nobin hl fm rms ncols nrows nophase letters = Ok (fm', axs) ->
  forall i a, nth_error axs i = Some a ->
    (letters = false -> a_letter a = None) /\
    (letters = true -> exists c, a_letter a = Some c /\ (i < 26 -> is_letter i c) /\ forall j a', nth_error axs j = Some a' -> a_letter a' = Some c -> j = i).
Proof.
  intros FO PI H i a Ha. split; intro L; [eapply figure_unlettered; eauto using nth_error_In|].
  destruct (figure_letters use_c fuel argsort q f nobin hl fm rms ncols nrows nophase letters fm' axs H L i a Ha) as (c & Q1 & Q2 & Q3). exists c. split; [exact Q1|]. split; [exact Q2|].
  intros j a' Ha' Q. destruct (figure_letters use_c fuel argsort q f nobin hl fm rms ncols nrows nophase letters fm' axs H L j a' Ha') as (c' & R1 & _ & R3). rewrite R1 in Q. injection Q as ->. lia.
Qed.
Lemma fig_alike use_c fuel argsort q ds b names E epoch xlim save f nobin hl fm rms ncols nrows nophase letters fm' axs :
  fit_of q ds b names E -> plot_init use_c fuel q epoch xlim save = Ok f -> formats_wf fm ->
  plot_multipanel use_c fuel argsort q f nobin hl fm rms ncols nrows nophase letters = Ok (fm', axs) ->
  forall i j a a', nth_error axs i = Some a -> nth_error axs j = Some a' -> (1 <= i /\ 1 <= j) \/ settled fm (tels ds) -> alike a a'.
Proof. intros FO PI W H. eapply figure_alike; eauto. Qed.
Lemma fig_ok use_c fuel argsort q ds b names E epoch xlim save f nobin hl fm rms ncols nrows nophase letters :
  fit_of q ds b names E -> plot_init use_c fuel q epoch xlim save = Ok f ->
  (forall l i, In i (argsort l) -> i < length l) -> formats_wf fm -> colours_suffice fm (tels ds) ->
  let num := ps_num (q_params q) in let cols := columns ncols in
  cols <> 0 -> (nophase = true \/ num = 0 \/ letters = true /\ forall r, nrows = Some r -> enough num r cols) ->
  exists fm' axs, plot_multipanel use_c fuel argsort q f nobin hl fm rms ncols nrows nophase letters = Ok (fm', axs).
Proof.
  intros FO PI AS W CS num cols NC [C|[C|[C1 C2]]]; [eapply figure_ok_plain; eauto|eapply figure_ok_plain; eauto|eapply figure_ok; eauto].
Qed.
Lemma fig_refuted use_c fuel argsort q f nobin hl fm rms ncols nrows letters fm' axs : let num := ps_num (q_params q) in let cols := columns ncols in
  (letters = false /\ 1 <= num) \/ (cols = 0 /\ 1 <= num) \/ (exists r, nrows = Some r /\ Nat.max 1 r * cols < num) ->
  plot_multipanel use_c fuel argsort q f nobin hl fm rms ncols nrows false letters <> Ok (fm', axs).
Proof. intros num cols C. now apply figure_refuted. Qed.

Definition xq_sort (l : list ext) : list nat := seq 0 (length l).
Lemma xq_sort_in l i : In i (xq_sort l) -> i < length l.
Proof. intro H. apply in_seq in H. lia. Qed.
Lemma xq_figure ncols nophase letters : columns ncols <> 0 -> nophase = true \/ letters = true -> forall epoch xlim save f,
  plot_init true 29 (xq exl_x true) epoch xlim save = Ok f ->
  exists fm' axs, plot_multipanel true 29 xq_sort (xq exl_x true) f false true [] true ncols None nophase letters = Ok (fm', axs).
Proof.
  intros NC L epoch xlim save f PI. destruct xq_colours as (C1 & C2 & C3).
  eapply fig_ok; [exact (xq_fit exl_x exl_dom true)|exact PI|exact xq_sort_in|exact C1|exact C2|exact NC|].
  destruct L as [->| ->]; [now left|right; right]. split; [reflexivity|]. discriminate.
Qed.
Lemma xq_settled : formats_wf [("a"%string, [("color"%string, "red"%string)])] /\ settled [("a"%string, [("color"%string, "red"%string)])] (tels (exl_data exl_x [])).
Proof.
  split.
  - intros t g H. cbn in H. destruct (String.eqb _ _); [|discriminate]. injection H as <-. unfold wf_dict. cbn. constructor; [easy|constructor].
  - intros t g _ H. cbn in H. destruct (String.eqb _ _); [|discriminate]. injection H as <-. exists "red"%string. reflexivity.
Qed.
